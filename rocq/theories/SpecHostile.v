(* What a peer can make the other side of a connection do (C106). *)
From Coq Require Import QArith.
From Verif Require Import Base ModelRange ModelInfo ModelSimple ModelStream ModelJumper ModelStrings ModelBuild ModelEngine ModelProtocol ModelRemote ModelForward
  SpecEngine SpecSystem SpecRemote SpecForward SpecSafety SpecDeploy.
Open Scope nat_scope.

Section Hostile.
Context {F M : Type}.
Notation stream := (list (tok F)).

(* the request in [st] is complete up to its ranges, and a list of ranges is announced longer than it is *)
Definition lying_ranges (st : stream) : Prop :=
  exists pre n l post, st = pre ++ KULong n :: KWords l :: post /\ (lenN l < 2 * n)%N.

(* vectors announced longer than they are, or cut into more than they hold *)
Definition total_size (l : list N) : N := fold_right N.add 0%N l.
Inductive lies : stream -> Prop :=
| lies_words n l post : (lenN l < n)%N -> lies (KULong n :: KWords l :: post)
| lies_doubles n l post : (lenN l < n)%N -> lies (KULong n :: KDoubles l :: post)
| lies_values a sizes b flat post :
    (b < total_size (firstn (N.to_nat a) sizes))%N -> lies (KULong a :: KWords sizes :: KULong b :: KDoubles flat :: post)
| lies_mask a sizes b flat post :
    (b < total_size (firstn (N.to_nat a) sizes))%N -> lies (KULong a :: KWords sizes :: KULong b :: KWords flat :: post).
Definition lying_reply (st : stream) : Prop := exists pre post, st = pre ++ post /\ lies post.

(* what a stream asks a server for, as the server reads it *)
Definition asks_extract (st : stream) (reqs : list request) : Prop :=
  exists s1 s2, r_header st = Ok (t_extract, s1) /\ r_extract_request s1 = Ok (reqs, s2).
Definition asks_forward (k : link F M) (st : stream) (m : list (string * list (request * uri))) : Prop :=
  exists s1 s2, r_header st = Ok (t_forward_extract, s1) /\ r_forward_extract_request (k_r_uri k) s1 = Ok (m, s2).

(* requests of which one is deadly for a message it is located at *)
Definition deadly_requests (w : world F) (cfg : config) (reqs : list request) : Prop :=
  exists u listing r e e',
    w_list w u = Ok listing /\ In e listing /\ In e' listing /\
    In r (canon_requests (c_ignore_ym cfg) false reqs) /\
    listed_as (c_ignore_ym cfg) e = r_string r /\ listed_as (c_ignore_ym cfg) e' = r_string r /\
    deadly w (u_path (l_uri e')) (l_uri e) (r_ranges r).
(* files of which one has a deadly item *)
Definition deadly_files (w : world F) (m : list (string * list (request * uri))) : Prop :=
  exists f l r u, In (f, l) m /\ In (r, u) l /\ deadly w f u (r_ranges r).

(* ---- what is asked of a server's surroundings ---- *)
Record defined_site (k : link F M) (s : site F M) (P : string -> Prop) : Prop := {
  ds_world : defined_world (s_world s) P;
  ds_forward : c_forward (s_cfg s) = false \/ keeps_items (w_forward (s_world s));
  ds_scan : forall p offs, s_scan_file s p offs <> UB;
  ds_list : forall l, no_death (Forall (fun u => u_offset u <> UB)) (s_list_uris s l);
  ds_axes : forall r z, s_list_axes s r z <> UB;
  ds_connect : forall ep t, s_connect s ep t <> UB;
  ds_mars : forall t, k_r_mars k t <> UB;
  ds_uri : forall t, no_death (fun x => u_offset (fst x) <> UB /\ u_length (fst x) <> UB) (k_r_uri k t)
}.
(* the codecs of other libraries read a part of the stream, if anything *)
Definition reads_on {A} (r : @reader F A) : Prop := forall t a rest, r t = Ok (a, rest) -> exists pre, t = pre ++ rest.
Definition reading_link (k : link F M) : Prop := reads_on (k_r_mars k) /\ reads_on (k_r_uri k).
End Hostile.

(* ---- examples ---- *)

(* the codec of the examples, refusing undefined offsets and lengths *)
Definition r_plain_uri {F} : @reader F uri := fun s =>
  let* (u, s) := r_demo_uri s in
  match u_offset u, u_length u with UB, _ | _, UB => Throw EStream | _, _ => Ok (u, s) end.
Definition strict_link (F : Type) : link F Z :=
  mk_link demo_title demo_what "ctx" (fun z => [KLL z]) r_ll w_demo_uri r_plain_uri.
(* a server for the file with two messages, the second with a bitmap of four points *)
Definition one_site : site Q Z := site_of (world_of one_file one_cache one_path one_state) one_cfg.
