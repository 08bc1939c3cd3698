(* What C90 and C91 say about log contexts and metrics. *)
From Verif Require Import Base ModelInfo ModelStream ModelStrings ModelEngine ModelQueue ModelTask ModelProtocol ModelRemote ModelContext SpecQueue.
Local Open Scope nat_scope.

(* ---- several processes ---- *)

(* where call g of a process comes from: its own API, or the k-th header another process has sent *)
Inductive origin := FromApi | FromHeader (p k : nat).
Record network := mk_network {
  n_config : nat -> cconfig;
  n_state : nat -> csys;
  n_origin : nat -> nat -> origin
}.
(* every process runs by the rules; a connection has the context that was sent to it *)
Definition runs (n : network) : Prop :=
  (forall p, no_abandon (cc_tasks (n_config n p)) /\ c_reachable (n_config n p) (n_state n p)) /\
  (forall p g p' k, n_origin n p g = FromHeader p' k ->
     exists g', nth_error (x_sent (n_state n p')) k = Some (g', cc_context (n_config n p) g)).
(* call g of p is made, directly or through other servers, for the API call g0 of p0 *)
Inductive on_behalf (n : network) : nat -> nat -> nat -> nat -> Prop :=
| B_api : forall p g, n_origin n p g = FromApi -> on_behalf n p g p g
| B_hop : forall p g p' k g' c p0 g0, n_origin n p g = FromHeader p' k -> nth_error (x_sent (n_state n p')) k = Some (g', c) ->
    on_behalf n p' g' p0 g0 -> on_behalf n p g p0 g0.

(* ---- metrics ---- *)

(* names the server sets itself *)
Definition server_names : list string := ["gribjump_request_id"; "action"; "count_extraction_requests"; "count_scan_requests";
  "count_received_offsets"; "elapsed_receive"; "elapsed_execute"; "elapsed_reply"; "error"]%string.
(* the action of a request type *)
Definition action_name (type : N) : option string :=
  if (type =? t_extract)%N then Some "extract"%string
  else if (type =? t_axes)%N then Some "axes"%string
  else if (type =? t_scan)%N then Some "scan"%string
  else if (type =? t_forward_extract)%N then Some "forwarded-extract"%string
  else if (type =? t_forward_scan)%N then Some "forwarded-scan"%string
  else None.

(* ---- schedules, for the examples ---- *)
Inductive caction := Begin (g : nat) | Move (a : action) | Send (g : nat) | Install (w : nat) | Forward (w : nat) | End (g : nat).

Definition in_call (cc : cconfig) (s : csys) (g : nat) : bool :=
  match x_running s (cc_thread cc g) with Some h => Nat.eqb h g | None => false end.
Definition cact (cc : cconfig) (s : csys) (a : caction) : option csys :=
  let th := cc_thread cc in
  match a with
  | Begin g =>
      if negb (x_begun s g) && match x_running s (th g) with None => true | _ => false end
      then Some (mk_csys (x_sys s) (wupd (x_begun s) g true) (wupd (x_running s) (th g) (Some g))
                         (wupd (x_context s) (th g) (cc_context cc g)) (x_wcontext s) (x_installed s) (x_sent s))
      else None
  | Move b =>
      if match b with
         | Client g | Notify g _ => in_call cc s g
         | Work w => match touches (s_workers (x_sys s) w) with Some g => in_call cc s g | None => true end
         end
      then match act (cc_tasks cc) (x_sys s) b with
           | Some s' => Some (mk_csys s' (x_begun s) (x_running s) (x_context s) (x_wcontext s) (x_installed s) (x_sent s))
           | None => None
           end
      else None
  | Send g =>
      if in_call cc s g
      then Some (mk_csys (x_sys s) (x_begun s) (x_running s) (x_context s) (x_wcontext s) (x_installed s) (x_sent s ++ [(g, x_context s (th g))]))
      else None
  | Install w =>
      match s_workers (x_sys s) w with
      | WRunning (g, i) =>
          if Nat.ltb w (cf_workers (cc_tasks cc)) && cc_forward cc g i
          then Some (mk_csys (x_sys s) (x_begun s) (x_running s) (x_context s) (wupd (x_wcontext s) w (x_context s (th g)))
                             (wupd (x_installed s) w (Some (g, i))) (x_sent s))
          else None
      | _ => None
      end
  | Forward w =>
      match s_workers (x_sys s) w, x_installed s w with
      | WRunning (g, i), Some (g', i') =>
          if Nat.ltb w (cf_workers (cc_tasks cc)) && Nat.eqb g g' && Nat.eqb i i'
          then Some (mk_csys (x_sys s) (x_begun s) (x_running s) (x_context s) (x_wcontext s) (x_installed s) (x_sent s ++ [(g, x_wcontext s w)]))
          else None
      | _, _ => None
      end
  | End g =>
      if in_call cc s g && match s_clients (x_sys s) g with CDone _ | CThrown => true | _ => false end
      then Some (mk_csys (x_sys s) (x_begun s) (wupd (x_running s) (th g) None) (x_context s) (x_wcontext s) (x_installed s) (x_sent s))
      else None
  end.
Fixpoint cplay (cc : cconfig) (s : csys) (l : list caction) : option csys :=
  match l with [] => Some s | a :: r => match cact cc s a with Some s' => cplay cc s' r | None => None end end.

(* one worker; calls 0 and 2 are made by thread 0, call 1 by thread 1; every call has one forwarded task *)
Definition ctx_config : cconfig :=
  mk_cconfig (mk_config 1 3 (fun _ => 1) (fun _ => None) (fun _ _ => None)) (fun g => if Nat.eqb g 1 then 1 else 0)
             (fun g => match g with 0 => "{""user"":""a""}" | 1 => "{""user"":""b""}" | _ => "{""user"":""c""}" end%string)
             (fun _ _ => true).
Definition ctx_schedule : list caction :=
  [Begin 0; Begin 1] ++ repeat (Move (Client 0)) 3 ++ repeat (Move (Client 1)) 3 ++
  repeat (Move (Work 0)) 2 ++ [Install 0; Forward 0] ++ repeat (Move (Work 0)) 4 ++ [Install 0] ++
  repeat (Move (Client 0)) 3 ++ [End 0; Begin 2; Forward 0] ++ repeat (Move (Work 0)) 2 ++
  repeat (Move (Client 2)) 3 ++ repeat (Move (Work 0)) 2 ++ [Install 0; Forward 0].
