(* C107: the answers. *)
From Verif Require Import Base ModelInfo ModelSimple ModelJumper ModelStrings ModelEngine ModelQueue ModelTask ModelNotify SpecEngine SpecQueue
  SpecConcurrent SpecNotify ProofsConcurrent ProofsConcurrent2 ProofsConcurrent3 ProofsNotify.
Local Open Scope nat_scope.

Lemma f_answer {F} (w : world F) text cf g cfg reqs keys its ts f h errs :
  sound_world w -> unique_listings w cfg -> c_forward cfg = false -> prepared w cfg reqs keys its ts ->
  no_abandon cf -> runs_tasks text cf g ts -> fruns cf f h -> returned (fst f) g errs ->
  answer_of keys errs (items_after ts (of_group g h) its) = extract_requests w cfg reqs.
Proof.
  intros Sw U Fw P NA T R X. destruct (sim_runs cf NA f h R) as (c & Rc & A). apply (seen_returned cf _ _ _ _ A) in X.
  exact (served_requests w Sw text cf g cfg reqs keys its ts c h errs U Fw P NA T Rc X).
Qed.
