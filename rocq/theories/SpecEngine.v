(* Specification vocabulary for the engine (C36-C45): what a request denotes, where it is listed,
   and which answer belongs to it.  Nothing here follows the loops of Engine.cc or Lister.cc. *)
From Coq Require Import Permutation Sorted.
From Verif Require Import Base ModelRange ModelInfo ModelSimple ModelCcsds ModelJumper ModelStrings ModelEngine.

Fixpoint has_char (c : ascii) (s : string) : bool :=
  match s with EmptyString => false | String a r => Ascii.eqb a c || has_char c r end.

(* ---- requests as text ---- *)

(* the canonical form of a request taken alone *)
Definition single (ignore_ym : bool) (s : string) : string :=
  canonical (ignore_ym && triggers s) s.

Definition pair_string (p : string * string) : string := (fst p ++ "=" ++ snd p)%string.
Definition request_string (l : list (string * string)) : string :=
  String.concat "," (map pair_string l).

(* a key or value as the MARS language writes them *)
Definition plain (s : string) : Prop :=
  has_char ","%char s = false /\ has_char "="%char s = false.
Definition wf_pairs (l : list (string * string)) : Prop :=
  NoDup (map fst l) /\
  forall k v, In (k, v) l -> plain k /\ plain v /\ k <> ""%string.
(* every character of s comes after '=' in ASCII (letters and '_' do, digits and '-' do not) *)
Fixpoint after_equals (s : string) : bool :=
  match s with EmptyString => true | String a r => N.ltb 61 (N_of_ascii a) && after_equals r end.

(* no token of the request is year=... or month=... *)
Definition no_year_month (s : string) : Prop := canonical true s = canonical false s.

Definition has_key (k : string) (l : list (string * string)) : bool :=
  existsb (fun p => String.eqb (fst p) k) l.
(* year and month are present exactly where both sides of the matching expect them: a request
   with a year or a month is recognised as having a date iff it has the key date *)
Definition year_month_agree (l : list (string * string)) : Prop :=
  has_key "year" l || has_key "month" l = true ->
  triggers (request_string l) = has_key "date" l.

(* the canonical strings of a batch, in the order of the requests *)
Definition batch_canonical {F} (ignore_ym : bool) (l : list request) : outcome (list string) :=
  omap (fun x => map r_string (snd (fst x))) (build_request_map (F := F) ignore_ym l).

(* the requests of a batch with their canonical strings: year and month are dropped from the first
   request on that mentions year, month and date (drop: whether one came before) *)
Fixpoint canon_requests (ignore drop : bool) (l : list request) : list request :=
  match l with
  | [] => []
  | r :: t =>
      let drop' := drop || (ignore && triggers (r_string r)) in
      mk_request (canonical drop' (r_string r)) (r_ranges r) (r_hash r) :: canon_requests ignore drop' t
  end.

(* ---- catalogue ---- *)

Definition listed_as (ignore_ym : bool) (e : listed) : string := fdbkey_to_str ignore_ym (l_key e).
(* the catalogue entry of a canonical request *)
Definition entry_of (ignore_ym : bool) (listing : list listed) (s : string) : option listed :=
  find (fun e => String.eqb (listed_as ignore_ym e) s) listing.
Definition duplicate_free (ignore_ym : bool) (listing : list listed) : Prop :=
  NoDup (map (listed_as ignore_ym) listing).

(* e is the catalogue entry of r, one of the requests of a batch *)
Definition located (cfg : config) (reqs : list request) (listing : list listed) (r : request) (e : listed) : Prop :=
  In r (canon_requests (c_ignore_ym cfg) false reqs) /\
  entry_of (c_ignore_ym cfg) listing (r_string r) = Some e.
(* different requests are listed at different places *)
Definition own_places (cfg : config) (reqs : list request) (listing : list listed) : Prop :=
  forall r e r' e' off, located cfg reqs listing r e -> located cfg reqs listing r' e' ->
    u_path (l_uri e) = u_path (l_uri e') ->
    u_offset (l_uri e) = Ok off -> u_offset (l_uri e') = Ok off -> r_string r = r_string r'.

(* std::sort by offset *)
Definition sorts {I : Type} (sorter : list (I * Z) -> list (I * Z)) : Prop :=
  forall l, Permutation l (sorter l) /\ StronglySorted (fun a b => (snd a <= snd b)%Z) (sorter l).

(* ---- groups ---- *)

(* m partitions the elements l into groups, the group of x being named by (name x) *)
Definition partitions {X} (name : X -> string) (l : list X) (m : list (string * list X)) : Prop :=
  NoDup (map fst m) /\
  Permutation l (concat (map snd m)) /\
  (forall g xs, In (g, xs) m -> xs <> [] /\ forall x, In x xs -> name x = g).

Section Answers.
Context {F : Type}.
Variable A : farith F.
Variable aec : aec_oracle.
Variable files : string -> option (list N).
(* what it means for inf to describe the message at an offset of a file *)
Variable true_info : string -> Z -> info F -> Prop.

(* res is what reading the message at u gives, for the ranges of the request *)
Definition own_answer (ignore_grid : bool) (u : uri) (r : request) (res : result F) : Prop :=
  exists bytes off inf,
    files (u_path u) = Some bytes /\
    u_offset u = Ok off /\
    true_info (u_path u) off inf /\
    (ignore_grid = false -> r_hash r <> ""%string /\ r_hash r = i_md5 inf) /\
    extract A aec bytes off inf (r_ranges r) = Ok res.

(* the same through a remote handle: the message is what [buffer_of] gives *)
Variable build_info : list N -> outcome (info F).
Variable buffer_of : uri -> Z -> outcome (list N).
Definition remote_answer (u : uri) (r : request) (res : result F) : Prop :=
  exists n buffer inf,
    u_scheme u = "fdb"%string /\
    u_length u = Ok n /\
    buffer_of u n = Ok buffer /\
    build_info buffer = Ok inf /\
    extract A aec buffer 0 inf (r_ranges r) = Ok res.

Definition answer (cfg : config) (u : uri) (r : request) (res : result F) : Prop :=
  own_answer (c_ignore_grid cfg) u r res \/ (c_inefficient cfg = true /\ remote_answer u r res).
End Answers.

(* the bytes the remote task decodes *)
Definition buffer_of (pieces : uri -> Z -> outcome (list (list N))) (fresh : Z -> list N)
                     (u : uri) (n : Z) : outcome (list N) :=
  if (n <? 0)%Z then Throw EBadAlloc else omap (read_loop (fresh n)) (pieces u n).

(* ---- everything the engine takes from outside, in one record ---- *)
Record world (F : Type) := mk_world {
  w_arith : farith F;
  w_aec : aec_oracle;
  w_cache_get : string -> list Z -> outcome (list (info F));
  w_files : string -> option (list N);
  w_sorter : list (string * @item F * Z) -> list (string * @item F * Z);
  w_build_info : list N -> outcome (info F);
  w_pieces : uri -> Z -> outcome (list (list N));
  w_fresh : Z -> list N;
  w_forward : list (string * list string) -> list (string * @item F) ->
              outcome (list error * list (string * @item F));
  w_list : string -> outcome (list listed);
  w_true_info : string -> Z -> info F -> Prop
}.
Arguments w_arith {F}. Arguments w_aec {F}. Arguments w_cache_get {F}. Arguments w_files {F}.
Arguments w_sorter {F}. Arguments w_build_info {F}. Arguments w_pieces {F}. Arguments w_fresh {F}.
Arguments w_forward {F}. Arguments w_list {F}. Arguments w_true_info {F}.

Section World.
Context {F : Type}.
Variable w : world F.
Definition extract_requests (cfg : config) (l : list request) : outcome (list (result F)) :=
  local_extract (w_arith w) (w_aec w) (w_cache_get w) (w_files w) (w_sorter w) (w_build_info w)
                (w_pieces w) (w_fresh w) (w_forward w) (w_list w) cfg l.
Definition extract_path_requests (cfg : config) (l : list path_request) : outcome (list (result F)) :=
  local_extract_paths (w_arith w) (w_aec w) (w_cache_get w) (w_files w) (w_sorter w) (w_build_info w)
                      (w_pieces w) (w_fresh w) (w_forward w) cfg l.
Definition extract_file (ignore_grid : bool) (its : list (string * @item F)) (path : string) (keys : list string)
  : outcome (list (string * result F)) :=
  file_task (w_arith w) (w_aec w) (w_cache_get w) (w_files w) (w_sorter w) ignore_grid its path keys.
Definition extract_remote (its : list (string * @item F)) (keys : list string)
  : outcome (list (string * result F)) :=
  inefficient_task (w_arith w) (w_aec w) (w_sorter w) (w_build_info w) (w_pieces w) (w_fresh w) its keys.
Definition answers (cfg : config) (u : uri) (r : request) (res : result F) : Prop :=
  answer (w_arith w) (w_aec w) (w_files w) (w_true_info w) (w_build_info w)
         (buffer_of (w_pieces w) (w_fresh w)) cfg u r res.
(* std::sort sorts, and what the info cache answers is true of the file (C18, C19) *)
Definition sound_world : Prop :=
  sorts (w_sorter w) /\
  forall p offs infos, w_cache_get w p offs = Ok infos -> Forall2 (w_true_info w p) offs infos.
Definition unique_listings (cfg : config) : Prop :=
  forall u l, w_list w u = Ok l -> duplicate_free (c_ignore_ym cfg) l.
(* the request can be answered from the catalogue entry *)
Definition servable_from (cfg : config) (inf : string -> Z -> info F) (r : request) (e : listed) : Prop :=
  is_remote (l_uri e) = false /\
  exists bytes off x,
    w_files w (u_path (l_uri e)) = Some bytes /\ u_offset (l_uri e) = Ok off /\
    (c_ignore_grid cfg = false -> r_hash r <> ""%string /\ r_hash r = i_md5 (inf (u_path (l_uri e)) off)) /\
    extract (w_arith w) (w_aec w) bytes off (inf (u_path (l_uri e)) off) (r_ranges r) = Ok x.
End World.

(* ---- a small world for the examples: constant fields whose value is their offset, grid hash "g" ---- *)
Definition demo_info (v : Z) : info Z :=
  mk_info Z 3 v 0 0 2 0 0 0 0 0 4 0 0 "g" "grid_simple" SimpleInfo.
Fixpoint demo_insert (j : string * @item Z * Z) (l : list (string * @item Z * Z)) :=
  match l with
  | [] => [j]
  | j' :: r => if (snd j <=? snd j')%Z then j :: l else j' :: demo_insert j r
  end.
Definition demo_uri (path : string) (off : Z) : uri := mk_uri "file" path "" 0 (Ok off) (Throw EAssert).
Definition demo_listing : list listed :=
  [ mk_listed [("param", "t"); ("step", "0")]%string (demo_uri "/b" 700);
    mk_listed [("step", "6"); ("param", "t")]%string (demo_uri "/a" 100);
    mk_listed [("step", "9"); ("param", "t")]%string (demo_uri "/b" 300) ].
Definition demo : world Z :=
  mk_world Z (mk_farith Z Z.of_N (fun z => z) Z.add Z.mul Z.div (-999)%Z)
    (fun _ _ _ _ => None)
    (fun _ offs => Ok (map demo_info offs))
    (fun _ => Some [])
    (fun l => fold_right demo_insert [] l)
    (fun buffer => Ok (demo_info (Z.of_N (hd 0%N buffer))))
    (fun u _ => if String.eqb (u_host u) "split" then Ok [[1]; [2]]%N else Ok [[1; 2]]%N)
    (fun n => repeat 255%N (Z.to_nat n))
    (fun _ _ => Throw ESeriousBug)
    (fun _ => Ok demo_listing)
    (fun _ off i => i = demo_info off).
Definition demo_cfg : config := mk_config false false false false false.
Definition demo_missing_cfg : config := mk_config false true false false false.
Definition ask (s : string) (n : N) : request := mk_request s [(0, n)]%N "g".
