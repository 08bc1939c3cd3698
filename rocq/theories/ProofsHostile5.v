From Coq Require Import Lia Permutation QArith.
From Verif Require Import Base BaseLemmas ModelRange ModelInfo ModelSimple ModelStream SpecStream ModelJumper ModelStrings ModelCache ModelBuild ModelEngine
  ModelProtocol ModelRemote ModelForward SpecEngine SpecSystem SpecRemote SpecForward SpecSafety SpecDeploy SpecHostile
  ProofsSystem ProofsSafety3 ProofsHostile ProofsHostile3.
Open Scope nat_scope.

Lemma tame_number {F} (Q : list (tok F) -> Prop) : (forall pre t, Q t -> Q (pre ++ t)) -> tame Q r_number.
Proof.
  intros later s. unfold r_number.
  apply (tame_bind Q later r_ulong (fun n s => let* (m, s) := r_str s in let* (z, s) := r_ll s in
     Ok (if (n =? 16)%N then Ok z else if (n =? 17)%N then UB else Throw (error_of n m), s))); [apply tame_ulong|].
  intros n. apply (tame_bind Q later r_str (fun m s => let* (z, s) := r_ll s in
     Ok (if (n =? 16)%N then Ok z else if (n =? 17)%N then UB else Throw (error_of n m), s))); [apply tame_str|].
  intros m. apply (tame_bind Q later r_ll (fun z s => Ok (if (n =? 16)%N then Ok z else if (n =? 17)%N then UB else Throw (error_of n m), s))); [apply tame_ll|].
  intros z. apply tame_ret.
Qed.
Lemma tame_plain_uri {F} (Q : list (tok F) -> Prop) : (forall pre t, Q t -> Q (pre ++ t)) -> tame Q r_plain_uri.
Proof.
  intros later.
  assert (T : tame Q r_demo_uri).
  { intros s. unfold r_demo_uri.
    apply (tame_bind Q later r_str (fun sch s => let* (p, s) := r_str s in let* (h, s) := r_str s in let* (port, s) := r_ll s in
      let* (o, s) := r_number s in let* (l, s) := r_number s in Ok (mk_uri sch p h port o l, s))); [apply tame_str|]. intros sch.
    apply (tame_bind Q later r_str (fun p s => let* (h, s) := r_str s in let* (port, s) := r_ll s in
      let* (o, s) := r_number s in let* (l, s) := r_number s in Ok (mk_uri sch p h port o l, s))); [apply tame_str|]. intros p.
    apply (tame_bind Q later r_str (fun h s => let* (port, s) := r_ll s in
      let* (o, s) := r_number s in let* (l, s) := r_number s in Ok (mk_uri sch p h port o l, s))); [apply tame_str|]. intros h.
    apply (tame_bind Q later r_ll (fun port s => let* (o, s) := r_number s in let* (l, s) := r_number s in Ok (mk_uri sch p h port o l, s))); [apply tame_ll|]. intros port.
    apply (tame_bind Q later r_number (fun o s => let* (l, s) := r_number s in Ok (mk_uri sch p h port o l, s))); [now apply tame_number|]. intros o.
    apply (tame_bind Q later r_number (fun l s => Ok (mk_uri sch p h port o l, s))); [now apply tame_number|]. intros l. apply tame_ret. }
  intros s. unfold r_plain_uri. apply (tame_bind Q later r_demo_uri (fun u s => match u_offset u, u_length u with UB, _ | _, UB => Throw EStream | _, _ => Ok (u, s) end)); [exact T|].
  intros u t. destruct (u_offset u), (u_length u); split; try discriminate; intros ? ? [= <- <-]; now exists [].
Qed.

Lemma strict_reading F : reading_link (strict_link F).
Proof.
  pose proof (fun (_ : list (tok F)) (_ : list (tok F)) (x : False) => x) as later. split.
  - intros t a r H. exact (proj2 (tame_ll (fun _ => False) t) a r H).
  - intros t a r H. exact (proj2 (tame_plain_uri (fun _ => False) later t) a r H).
Qed.

Lemma one_site_defined : defined_site (strict_link Q) one_site one_path.
Proof.
  constructor; cbn [one_site site_of s_world s_cfg s_scan_file s_list_uris s_list_axes s_connect].
  - exact (system_defined one_file one_cache one_path one_file_sound one_file_defined one_state one_state_reachable).
  - left. reflexivity.
  - discriminate.
  - intros l. exact (Forall_nil _).
  - discriminate.
  - discriminate.
  - intros t. cbn [strict_link k_r_mars]. destruct t as [|[] t]; discriminate.
  - intros t. cbn [strict_link k_r_uri]. unfold r_plain_uri.
    assert (r_demo_uri t <> UB) as N.
    { pose proof (proj1 (tame_plain_uri (fun _ : list (tok Q) => False) (fun _ _ x => x) t)) as X. unfold r_plain_uri in X.
      intros E. rewrite E in X. exact (X eq_refl). }
    destruct (r_demo_uri t) as [[u r]|e|]; cbn [obind]; [|exact I|congruence].
    destruct (u_offset u) eqn:E1, (u_length u) eqn:E2; cbn [no_death fst]; try exact I; split; congruence.
Qed.
