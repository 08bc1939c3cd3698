(* The server's side of a forwarded extraction: numbering the received items does not change what is extracted. *)
From Coq Require Import Lia Permutation Sorted.
From Verif Require Import Base BaseLemmas ModelRange ModelInfo ModelSimple ModelCcsds ModelStream SpecStream ModelJumper
  ModelStrings ModelCache ModelEngine SpecEngine ModelProtocol ModelRemote SpecRemote ModelForward SpecForward
  ProofsStrings ProofsEngine2 ProofsEngine3 ProofsCache2 ProofsProtocol ProofsRemote.
Local Open Scope nat_scope.

Lemma NoDup_app_iff_ {X} (l l' : list X) :
  NoDup (l ++ l') <-> NoDup l /\ NoDup l' /\ (forall x, In x l -> In x l' -> False).
Proof.
  induction l as [|x l IH]; cbn [app].
  - split; [intros H; split; [constructor|split; [exact H|contradiction]]|tauto].
  - split.
    + intros H. inversion H as [|? ? Nx H']; subst. apply IH in H'. destruct H' as (N1 & N2 & D).
      split; [constructor; [|exact N1]|split; [exact N2|]].
      * intros I. apply Nx, in_or_app. now left.
      * intros y [<-|I] I'; [apply Nx, in_or_app; now right|exact (D y I I')].
    + intros (N1 & N2 & D). inversion N1 as [|? ? Nx N1']; subst. constructor.
      * intros I. apply in_app_or in I. destruct I as [I|I]; [contradiction|]. exact (D x (or_introl eq_refl) I).
      * apply IH. split; [exact N1'|]. split; [exact N2|]. intros y I I'. exact (D y (or_intror I) I').
Qed.

(* ---- names ---- *)
Definition zs (n : Z) (len : nat) : list Z := map (fun i => (n + Z.of_nat i)%Z) (seq 0 len).
Lemma zs_cons n len : zs n (S len) = n :: zs (n + 1) len.
Proof.
  unfold zs. cbn [seq map]. f_equal; [lia|]. rewrite <- seq_shift, map_map. apply map_ext. intros i. lia.
Qed.
Lemma zs_app n a b : zs n (a + b) = zs n a ++ zs (n + Z.of_nat a) b.
Proof.
  revert n. induction a as [|a IH]; intros n.
  - cbn [Nat.add]. unfold zs at 2. cbn. now rewrite Z.add_0_r.
  - cbn [Nat.add]. rewrite !zs_cons. cbn [app]. f_equal. rewrite IH. do 2 f_equal. lia.
Qed.
Lemma zs_nodup n len : NoDup (zs n len).
Proof.
  unfold zs. apply FinFun.Injective_map_NoDup; [|apply seq_NoDup]. intros i j H. lia.
Qed.
Lemma decimals_nodup n len : NoDup (map decimal (zs n len)).
Proof. apply FinFun.Injective_map_NoDup; [|apply zs_nodup]. intros a b. apply decimal_inj. Qed.

Lemma sorted_map {X Y} (f : X -> Y) (R : Y -> Y -> Prop) l :
  StronglySorted (fun a b => R (f a) (f b)) l <-> StronglySorted R (map f l).
Proof.
  induction l as [|x l IH]; [split; constructor|]. cbn [map]. split; intros H.
  - inversion H as [|? ? S Fx]; subst. constructor; [now apply IH|]. rewrite Forall_map. exact Fx.
  - inversion H as [|? ? S Fx]; subst. constructor; [now apply IH|]. rewrite Forall_map in Fx. exact Fx.
Qed.
Lemma sorted_same_keys {X Y} (fx : X -> Z) (fy : Y -> Z) l l' : map fx l = map fy l' ->
  StronglySorted (fun a b => (fx a <= fx b)%Z) l -> StronglySorted (fun a b => (fy a <= fy b)%Z) l'.
Proof. intros E S. apply sorted_map. rewrite <- E. apply (sorted_map fx Z.le). exact S. Qed.

(* ---- tasks in general ---- *)
Section Run.
Context {F : Type}.
Notation items := (list (string * @item F)).
Notation apply_results := (fold_left (fun (m : items) p => supdate (fst p) (set_result (F := F) (snd p)) m)).
Lemma run_tasks_eq ts : forall its : items, (forall t, In t ts -> t <> UB) ->
  run_tasks ts its = Ok (errors_of ts, apply_results (concat (results_in ts)) its).
Proof.
  induction ts as [|t ts IH]; intros its H; [reflexivity|].
  assert (H' : forall t, In t ts -> t <> UB) by (intros; apply H; now right).
  destruct t as [rs|e|]; cbn [run_tasks errors_of results_in concat].
  - rewrite fold_left_app. now apply IH.
  - rewrite IH by exact H'. reflexivity.
  - exfalso. apply (H UB); [now left|reflexivity].
Qed.
Lemma run_tasks_ub ts : forall its : items, In UB ts -> run_tasks ts its = UB.
Proof.
  induction ts as [|t ts IH]; intros its H; [contradiction|].
  destruct t as [rs|e|]; cbn [run_tasks]; [| |reflexivity]; destruct H as [H|H]; try discriminate.
  - now apply IH.
  - now rewrite IH.
Qed.
Lemma ub_dec {B} (ts : list (outcome B)) : {In UB ts} + {forall t, In t ts -> t <> UB}.
Proof.
  induction ts as [|t ts IH]; [right; contradiction|].
  destruct t as [rs|e|]; [| |left; now left]; (destruct IH as [I|N]; [left; now right|right]);
    intros t [<-|I]; (discriminate || now apply N).
Qed.
End Run.
Lemma errors_omap {B C} (g : outcome B -> outcome C) ts :
  (forall t, In t ts -> match t with Ok _ => exists c, g t = Ok c | Throw e => g t = Throw e | UB => g t = UB end) ->
  errors_of (map g ts) = errors_of ts.
Proof.
  induction ts as [|t ts IH]; intros H; [reflexivity|]. cbn [map].
  assert (H1 := H t (or_introl eq_refl)). specialize (IH (fun t I => H t (or_intror I))).
  destruct t as [b|e|].
  - destruct H1 as [c E]. rewrite E. exact IH.
  - rewrite H1. cbn. now rewrite IH.
  - rewrite H1. exact IH.
Qed.
Lemma no_errors_all_ok {B} (ts : list (outcome B)) :
  errors_of ts = [] -> (forall t, In t ts -> t <> UB) -> ts = map Ok (results_in ts).
Proof.
  induction ts as [|t ts IH]; intros E N; [reflexivity|].
  destruct t as [b|e|]; [|discriminate|exfalso; exact (N UB (or_introl eq_refl) eq_refl)].
  cbn [results_in map]. f_equal. apply IH; [exact E|]. intros t I. apply N. now right.
Qed.

Section Server.
Context {F : Type}.
Variable A : farith F.
Variable aec : aec_oracle.
Variable cache_get : string -> list Z -> outcome (list (info F)).
Variable files : string -> option (list N).
Variable sorter : list (string * @item F * Z) -> list (string * @item F * Z).
Variable build_info : list N -> outcome (info F).
Variable pieces : uri -> Z -> outcome (list (list N)).
Variable fresh : Z -> list N.
Variable forward : list (string * list string) -> list (string * @item F) ->
                   outcome (list error * list (string * @item F)).
Variable cfg : config.
Variable what : error -> string.
Hypothesis sorter_ok : sorts sorter.
Notation items := (list (string * @item F)).
Notation job := (string * @item F * Z)%type.
Notation name_of := (fun j : job => fst (fst j)).
Notation apply_results := (fold_left (fun (m : items) p => supdate (fst p) (set_result (F := F) (snd p)) m)).

(* an item as the server knows it *)
Definition arrived (i : @item F) : @item F :=
  set_uri (as_file (it_uri i)) (new_item (mk_request "" (r_ranges (it_request i)) (r_hash (it_request i)))).
Fixpoint number_jobs (n : Z) (js : list job) : list job :=
  match js with
  | [] => []
  | j :: t => (decimal n, arrived (snd (fst j)), snd j) :: number_jobs (n + 1) t
  end.
Fixpoint number_all (n : Z) (pf : list (string * list job)) : list (string * list job) :=
  match pf with
  | [] => []
  | (f, js) :: t => (f, number_jobs n js) :: number_all (n + Z.of_nat (length js)) t
  end.

Lemma number_jobs_length n js : length (number_jobs n js) = length js.
Proof. revert n. induction js as [|j js IH]; intros n; [reflexivity|]. cbn. f_equal. apply IH. Qed.
Lemma number_jobs_offsets n js : map snd (number_jobs n js) = map snd js.
Proof. revert n. induction js as [|j js IH]; intros n; [reflexivity|]. cbn. f_equal. apply IH. Qed.
Lemma number_jobs_names n js : map name_of (number_jobs n js) = map decimal (zs n (length js)).
Proof.
  revert n. induction js as [|j js IH]; intros n; [reflexivity|]. cbn [number_jobs map length].
  rewrite zs_cons. cbn [map fst]. f_equal. apply IH.
Qed.
Lemma number_all_names n pf :
  map name_of (concat (map snd (number_all n pf))) = map decimal (zs n (length (concat (map snd pf)))).
Proof.
  revert n. induction pf as [|[f js] pf IH]; intros n; [reflexivity|].
  cbn [number_all map snd concat]. rewrite map_app, number_jobs_names, IH, app_length, zs_app, map_app. reflexivity.
Qed.
Lemma number_all_shape n pf : map (fun x => (fst x, length (snd x))) (number_all n pf)
  = map (fun x => (fst x, length (snd x))) pf.
Proof.
  revert n. induction pf as [|[f js] pf IH]; intros n; [reflexivity|].
  cbn [number_all map fst snd]. rewrite number_jobs_length. f_equal. apply IH.
Qed.
Lemma number_all_files n pf : map fst (number_all n pf) = map fst pf.
Proof.
  revert n. induction pf as [|[f js] pf IH]; intros n; [reflexivity|]. cbn [number_all map fst]. f_equal. apply IH.
Qed.

Lemma number_items_jobs n js :
  number_items n (map (fun j : job => received (it_request (snd (fst j)), it_uri (snd (fst j)))) js)
  = map fst (number_jobs n js).
Proof.
  revert n. induction js as [|j js IH]; intros n; [reflexivity|]. cbn [map number_items number_jobs].
  unfold received at 1. cbn [fst snd]. f_equal. apply IH.
Qed.
Lemma number_files_all n pf :
  number_files n (map received_file (map (to_wire (F := F)) pf))
  = map (fun x => (fst x, map fst (snd x))) (number_all n pf).
Proof.
  revert n. induction pf as [|[f js] pf IH]; intros n; [reflexivity|].
  cbn [map number_files number_all fst snd]. unfold received_file at 1, to_wire at 1. cbn [fst snd].
  cbn [number_files]. change (snd (to_wire (f, js))) with
    (map (fun j : job => (it_request (snd (fst j)), it_uri (snd (fst j)))) js).
  rewrite (map_map _ received js), number_items_jobs, map_length. f_equal. apply IH.
Qed.

(* what is asked of the files sent: known offsets, all different, in ascending order; file names in order *)
Definition good_job (j : job) : Prop := u_offset (it_uri (snd (fst j))) = Ok (snd j).
Definition good_file (f : string * list job) : Prop :=
  snd f <> [] /\ Forall good_job (snd f) /\ NoDup (map snd (snd f)) /\
  StronglySorted (fun a b => (snd a <= snd b)%Z) (snd f).

Variable pf : list (string * list job).
Hypothesis pf_good : Forall good_file pf.
Hypothesis pf_names : NoDup (map fst pf).
Hypothesis pf_order : in_key_order pf = pf.
Hypothesis pf_some : pf <> [].

Definition npf := number_all 0 pf.
Definition srv_items : items := map fst (concat (map snd npf)).

Lemma srv_named : concat (map snd (number_files (F := F) 0 (map received_file (map (to_wire (F := F)) pf)))) = srv_items.
Proof.
  rewrite number_files_all. unfold srv_items, npf. rewrite map_map. cbn [snd].
  rewrite concat_map, map_map. reflexivity.
Qed.
Lemma srv_nodup : NoDup (map fst srv_items).
Proof.
  unfold srv_items, npf. rewrite map_map. rewrite number_all_names. apply decimals_nodup.
Qed.

Lemma number_jobs_good n js : Forall good_job js -> Forall good_job (number_jobs n js).
Proof.
  intros H. revert n. induction H as [|j js Hj H IH]; intros n; constructor; [exact Hj|apply IH].
Qed.
Lemma number_all_in n l x : In x (number_all n l) -> exists m y, In y l /\ x = (fst y, number_jobs m (snd y)).
Proof.
  revert n. induction l as [|[f js] l IH]; intros n; [contradiction|]. cbn [number_all]. intros [<-|I].
  - exists n, (f, js). split; [now left|reflexivity].
  - destruct (IH _ I) as (m & y & Iy & E). exists m, y. split; [now right|exact E].
Qed.
Lemma number_all_good f js : In (f, js) npf -> good_file (f, js).
Proof.
  intros I. destruct (number_all_in _ _ _ I) as (m & [f' js'] & Iy & E). injection E as -> ->.
  destruct (proj1 (Forall_forall _ _) pf_good _ Iy) as (G1 & G2 & G3 & G4). cbn [snd] in *.
  split; [|split; [|split]]; cbn [snd].
  - intros Z. apply G1. apply length_zero_iff_nil. rewrite <- (number_jobs_length m). now rewrite Z.
  - now apply number_jobs_good.
  - now rewrite number_jobs_offsets.
  - apply (sorted_same_keys snd snd js'); [symmetry; apply number_jobs_offsets|exact G4].
Qed.

Lemma srv_find f js j : In (f, js) npf -> In j js -> sfind (fst (fst j)) srv_items = Some (snd (fst j)).
Proof.
  intros I1 I2. apply in_sfind; [apply srv_nodup|]. unfold srv_items. rewrite <- surjective_pairing.
  apply in_map. apply in_concat. exists js. split; [|exact I2]. now apply (in_map snd) in I1.
Qed.
Lemma srv_get f js j : In (f, js) npf -> In j js -> get_item srv_items (fst (fst j)) = Ok (snd (fst j)).
Proof. intros I1 I2. unfold get_item. now rewrite (srv_find f js j I1 I2). Qed.
Lemma srv_jobs f js : In (f, js) npf -> jobs srv_items (map name_of js) = Ok js.
Proof.
  intros I. unfold jobs.
  assert (X : forall l, incl l js ->
    mapM (fun k => let* i := get_item srv_items k in let* o := u_offset (it_uri i) in Ok (k, i, o))
         (map name_of l) = Ok l).
  { induction l as [|j l IH]; intros Il; [reflexivity|]. cbn [map mapM].
    rewrite (srv_get f js j I) by (apply Il; now left). cbn [obind].
    destruct (number_all_good _ _ I) as (_ & G & _).
    pose proof (proj1 (Forall_forall _ _) G j (Il j (or_introl eq_refl))) as Gj. unfold good_job in Gj.
    rewrite Gj. cbn [obind]. rewrite IH by (intros x Ix; apply Il; now right). cbn [obind].
    destruct j as [[a b] c]. reflexivity. }
  apply X, incl_refl.
Qed.
Lemma sorted_fixed f js : In (f, js) npf -> sorter js = js.
Proof.
  intros I. destruct (number_all_good _ _ I) as (_ & _ & G3 & G4). cbn [snd] in *.
  destruct (sorter_ok js) as [P S]. symmetry. apply zsorted_unique; auto.
Qed.

(* extraction does not look at names *)
Definition core (path : string) (js : list job) : outcome (list (string * result F)) :=
  let* infos := cache_get path (map snd js) in
  match files path with
  | None => Throw ERead
  | Some bytes => extract_loop A aec (c_ignore_grid cfg) bytes js infos
  end.
Definition renamed (js : list job) (x : outcome (list (string * result F))) : outcome (list (string * result F)) :=
  omap (fun out => combine (map name_of js) (map snd out)) x.

Lemma loop_renamed bytes js : forall n infos,
  extract_loop A aec (c_ignore_grid cfg) bytes (number_jobs n js) infos =
  renamed (number_jobs n js) (extract_loop A aec (c_ignore_grid cfg) bytes js infos).
Proof.
  induction js as [|[[k i] o] js IH]; intros n infos; [reflexivity|].
  cbn [number_jobs extract_loop fst snd]. destruct infos as [|inf infos]; [reflexivity|].
  change (it_request (arrived i)) with (mk_request "" (r_ranges (it_request i)) (r_hash (it_request i))).
  cbn [r_hash r_ranges].
  destruct (negb (c_ignore_grid cfg) && _); [reflexivity|].
  destruct (negb (c_ignore_grid cfg) && negb _); [reflexivity|].
  destruct (extract A aec bytes o inf (r_ranges (it_request i))) as [res| |]; cbn [obind]; [|reflexivity..].
  rewrite IH. destruct (extract_loop A aec (c_ignore_grid cfg) bytes js infos); reflexivity.
Qed.
Lemma core_renamed path n js : core path (number_jobs n js) = renamed (number_jobs n js) (core path js).
Proof.
  unfold core. rewrite number_jobs_offsets. destruct (cache_get path (map snd js)); cbn [obind]; [|reflexivity..].
  destruct (files path); [|reflexivity]. apply loop_renamed.
Qed.
Lemma loop_names bytes js : forall infos out,
  extract_loop A aec (c_ignore_grid cfg) bytes js infos = Ok out -> map fst out = map name_of js.
Proof.
  induction js as [|[[k i] o] js IH]; intros infos out H; cbn [extract_loop] in H; [injection H as <-; reflexivity|].
  destruct infos as [|inf infos]; [discriminate|].
  destruct (negb (c_ignore_grid cfg) && _); [discriminate|].
  destruct (negb (c_ignore_grid cfg) && negb _); [discriminate|].
  destruct (extract A aec bytes o inf _) as [res| |]; cbn [obind] in H; try discriminate.
  destruct (extract_loop A aec (c_ignore_grid cfg) bytes js infos) as [rest| |] eqn:E; cbn [obind] in H; try discriminate.
  injection H as <-. cbn [map fst]. f_equal. eapply IH, E.
Qed.
Lemma core_names path js out : core path js = Ok out -> map fst out = map name_of js.
Proof.
  unfold core. destruct (cache_get path (map snd js)) as [infos| |]; cbn [obind]; try discriminate.
  destruct (files path) as [bytes|]; [|discriminate]. apply loop_names.
Qed.

Notation fm := (map (fun f : string * list job => (fst f, map name_of (snd f))) npf).
Lemma fm_named :
  map (fun f => (fst f, map fst (snd f))) (number_files (F := F) 0 (map received_file (map (to_wire (F := F)) pf))) = fm.
Proof.
  rewrite number_files_all, map_map. apply map_ext. intros [f js]. cbn [fst snd]. now rewrite map_map.
Qed.
Lemma fm_order : in_key_order fm = fm.
Proof.
  apply ssort_fix.
  - apply (sorted_map fst (fun x y => String.leb x y = true)). rewrite map_map. cbn [fst].
    unfold npf. rewrite number_all_files. apply (sorted_map fst (fun x y => String.leb x y = true)).
    rewrite <- pf_order. apply ssort_sorted.
  - intros x y Ix Iy E. eapply map_inj_in; [|exact Ix|exact Iy|exact E].
    rewrite map_map. cbn [fst]. unfold npf. now rewrite number_all_files.
Qed.

(* the tasks of the server *)
Notation sched := (schedule A aec cache_get files sorter build_info pieces fresh forward cfg).
Notation ts := (map (fun f : string * list job => core (fst f) (snd f)) npf).
Lemma srv_task f js : In (f, js) npf ->
  task_for A aec cache_get files sorter build_info pieces fresh cfg srv_items (f, map name_of js) = Ok (core f js).
Proof.
  intros I. unfold task_for. cbn [fst snd].
  destruct (number_all_good _ _ I) as (G1 & _). cbn [snd] in G1.
  destruct js as [|j js]; [congruence|]. cbn [map].
  rewrite (srv_get f _ j I) by now left. cbn [obind].
  assert (R : is_remote (it_uri (snd (fst j))) = false).
  { destruct (number_all_in _ _ _ I) as (m & [f' js'] & _ & E). injection E as _ E.
    destruct js' as [|j' js']; [discriminate|]. cbn [number_jobs snd] in E. injection E as -> _. reflexivity. }
  rewrite R. f_equal. unfold file_task.
  change (fst (fst j) :: map name_of js) with (map name_of (j :: js)).
  rewrite (srv_jobs f _ I). cbn [obind]. rewrite (sorted_fixed f _ I). reflexivity.
Qed.
Lemma srv_sched_tasks : sched false fm srv_items = run_tasks ts srv_items.
Proof.
  unfold schedule. rewrite fm_order.
  assert (X : forall l, incl l npf ->
    mapM (task_for A aec cache_get files sorter build_info pieces fresh cfg srv_items)
         (map (fun f : string * list job => (fst f, map name_of (snd f))) l)
    = Ok (map (fun f : string * list job => core (fst f) (snd f)) l)).
  { induction l as [|[f js] l IH]; intros Il; [reflexivity|]. cbn [map mapM fst snd].
    rewrite srv_task by (apply Il; now left). cbn [obind]. rewrite IH by (intros x Ix; apply Il; now right).
    reflexivity. }
  rewrite (X npf (incl_refl _)). cbn [obind].
  destruct (N.eqb_spec (lenN ts) 0) as [E|NE]; [|reflexivity]. exfalso. apply pf_some.
  unfold lenN in E. rewrite map_length in E. unfold npf in E.
  apply length_zero_iff_nil. rewrite <- (map_length fst), <- (number_all_files 0), map_length. lia.
Qed.

(* the client's view of the same tasks *)
Notation cts := (map (fun f : string * list job => core (fst f) (snd f)) pf).
Lemma ts_renamed n l :
  map (fun f : string * list job => core (fst f) (snd f)) (number_all n l)
  = map (fun p => renamed (snd (fst p)) (snd p))
        (combine (number_all n l) (map (fun f : string * list job => core (fst f) (snd f)) l)).
Proof.
  revert n. induction l as [|[f js] l IH]; intros n; [reflexivity|].
  cbn [number_all map combine fst snd]. rewrite core_renamed. f_equal. apply IH.
Qed.
Lemma errors_renamed n l :
  errors_of (map (fun f : string * list job => core (fst f) (snd f)) (number_all n l))
  = errors_of (map (fun f : string * list job => core (fst f) (snd f)) l).
Proof.
  revert n. induction l as [|[f js] l IH]; intros n; [reflexivity|].
  cbn [number_all map fst snd errors_of]. rewrite core_renamed.
  destruct (core f js) as [out|e|]; cbn [renamed omap obind]; rewrite IH; reflexivity.
Qed.
Lemma ub_renamed n l :
  In UB (map (fun f : string * list job => core (fst f) (snd f)) (number_all n l))
  <-> In UB (map (fun f : string * list job => core (fst f) (snd f)) l).
Proof.
  revert n. induction l as [|[f js] l IH]; intros n; [reflexivity|].
  cbn [number_all map fst snd In]. rewrite core_renamed, IH.
  destruct (core f js) as [out|e|]; cbn [renamed omap obind]; intuition discriminate.
Qed.

(* names of results, in order, are among the names of jobs *)
Lemma results_names n l : Forall good_file l ->
  incl (map fst (concat (results_in (map (fun f : string * list job => core (fst f) (snd f)) (number_all n l)))))
       (map name_of (concat (map snd (number_all n l)))) /\
  (NoDup (map name_of (concat (map snd (number_all n l)))) ->
   NoDup (map fst (concat (results_in (map (fun f : string * list job => core (fst f) (snd f)) (number_all n l)))))).
Proof.
  intros _. generalize (number_all n l). clear n l. induction l as [|[f js] l [IH1 IH2]]; [split; [apply incl_refl|auto]|].
  cbn [map fst snd concat]. rewrite map_app. destruct (core f js) as [out|e|] eqn:E; cbn [results_in concat].
  - apply core_names in E. rewrite map_app, E. split.
    + apply incl_app; [apply incl_appl, incl_refl|apply incl_appr, IH1].
    + intros ND. apply NoDup_app_iff_ in ND. destruct ND as (N1 & N2 & D). apply NoDup_app_iff_.
      split; [exact N1|]. split; [now apply IH2|]. intros x Ix Iy. exact (D x Ix (IH1 _ Iy)).
  - split; [apply incl_appr, IH1|]. intros ND. apply NoDup_app_iff_ in ND. tauto.
  - split; [apply incl_appr, IH1|]. intros ND. apply NoDup_app_iff_ in ND. tauto.
Qed.
(* ---- reading the results back ---- *)
Definition after : items := apply_results (concat (results_in ts)) srv_items.
Definition read_one (k : string) : outcome (result F) :=
  let* i := get_item after k in match it_result i with Some r => Ok r | None => UB end.

Lemma ts_nodup : NoDup (map fst (concat (results_in ts))).
Proof.
  apply (proj2 (results_names 0 pf pf_good)). fold npf. unfold npf. rewrite number_all_names. apply decimals_nodup.
Qed.
Lemma read_total f js j : In (f, js) npf -> In j js -> exists r, read_one (fst (fst j)) = Ok r.
Proof.
  intros I1 I2. pose proof (srv_find f js j I1 I2) as E. unfold read_one, get_item, after.
  destruct (in_dec string_dec (fst (fst j)) (map fst (concat (results_in ts)))) as [I|NI].
  - apply in_map_iff in I. destruct I as ([k r] & Ek & I). cbn [fst] in Ek. subst k. exists r.
    rewrite (apply_results_find _ _ _ r _ ts_nodup I E). reflexivity.
  - rewrite apply_results_other by exact NI. rewrite E. cbn [obind].
    assert (X : exists i, snd (fst j) = arrived i).
    { destruct (number_all_in _ _ _ I1) as (m & [f' js'] & _ & E'). injection E' as _ ->. clear - I2.
      cbn [snd] in I2. revert m I2. induction js' as [|a l IH]; intros m I2; [contradiction|]. cbn [number_jobs] in I2.
      destruct I2 as [<-|I2]; [cbn; eauto|eapply IH, I2]. }
    destruct X as [i ->]. exists ([], []). reflexivity.
Qed.
Lemma in_results_in {B} (l : list (outcome B)) b : In (Ok b) l -> In b (results_in l).
Proof.
  induction l as [|t l IH]; [contradiction|]. intros [->|I]; [now left|].
  destruct t; cbn [results_in]; [right|..]; now apply IH.
Qed.
Lemma read_result f js out : In (f, js) npf -> core f js = Ok out ->
  mapM read_one (map name_of js) = Ok (map snd out).
Proof.
  intros I E. rewrite <- (core_names _ _ _ E).
  assert (X : forall l, incl l out -> mapM read_one (map fst l) = Ok (map snd l)).
  { induction l as [|[k r] l IH]; intros Il; [reflexivity|]. cbn [map mapM fst snd].
    assert (Ik : In (k, r) out) by (apply Il; now left).
    assert (R : read_one k = Ok r).
    { assert (Nk : In k (map name_of js)).
      { rewrite <- (core_names _ _ _ E). now apply (in_map fst) in Ik. }
      apply in_map_iff in Nk. destruct Nk as (j & <- & Ij).
      pose proof (srv_find f js j I Ij) as Ej. unfold read_one, get_item, after.
      rewrite (apply_results_find _ _ _ r _ ts_nodup) with (2 := Ej); [reflexivity|].
      apply in_concat. exists out. split; [|exact Ik]. apply in_results_in. rewrite <- E.
      apply (in_map (fun f : string * list job => core (fst f) (snd f)) _ _ I). }
    rewrite R. cbn [obind]. rewrite IH by (intros x Ix; apply Il; now right). reflexivity. }
  apply X, incl_refl.
Qed.
Lemma read_some f js : In (f, js) npf -> exists rs, mapM read_one (map name_of js) = Ok rs /\ length rs = length js.
Proof.
  intros I.
  assert (X : forall l, incl l js -> exists rs, mapM read_one (map name_of l) = Ok rs /\ length rs = length l).
  { induction l as [|j l IH]; intros Il; [exists []; auto|]. cbn [map mapM].
    destruct (read_total f js j I (Il j (or_introl eq_refl))) as [r R]. rewrite R. cbn [obind].
    destruct IH as (rs & E & L); [intros x Ix; apply Il; now right|]. rewrite E. cbn [obind].
    exists (r :: rs). cbn [length]. auto. }
  apply X, incl_refl.
Qed.

Definition read_file (f : string * list string) : outcome (string * list (result F)) :=
  let* rs := mapM read_one (order_after sorter srv_items (snd f)) in Ok (fst f, rs).
Lemma order_fixed f js : In (f, js) npf -> order_after sorter srv_items (map name_of js) = map name_of js.
Proof. intros I. unfold order_after. rewrite (srv_jobs f js I), (sorted_fixed f js I). reflexivity. Qed.
Lemma read_all : exists res, mapM read_file fm = Ok res /\
  map (fun f => (fst f, length (snd f))) res = map (fun f => (fst f, length (snd f))) npf.
Proof.
  assert (X : forall l, incl l npf -> exists res,
    mapM read_file (map (fun f : string * list job => (fst f, map name_of (snd f))) l) = Ok res /\
    map (fun f => (fst f, length (snd f))) res = map (fun f => (fst f, length (snd f))) l).
  { induction l as [|[f js] l IH]; intros Il; [exists []; auto|]. cbn [map mapM fst snd].
    assert (I : In (f, js) npf) by (apply Il; now left).
    destruct (read_some f js I) as (rs & E & L). unfold read_file at 1. cbn [snd fst].
    rewrite (order_fixed f js I), E. cbn [obind].
    destruct IH as (res & E' & L'); [intros x Ix; apply Il; now right|]. rewrite E'. cbn [obind].
    exists ((f, rs) :: res). cbn [map fst snd]. now rewrite L, L'. }
  apply X, incl_refl.
Qed.
Lemma snd_combine {X Y} (l : list X) (l' : list Y) : length l = length l' -> map snd (combine l l') = l'.
Proof. revert l'. induction l; intros [|y l'] H; try discriminate; [reflexivity|]. cbn. f_equal. auto. Qed.
Lemma read_all_ok n l : incl (number_all n l) npf ->
  errors_of (map (fun f : string * list job => core (fst f) (snd f)) l) = [] ->
  (forall t, In t (map (fun f : string * list job => core (fst f) (snd f)) l) -> t <> UB) ->
  mapM read_file (map (fun f : string * list job => (fst f, map name_of (snd f))) (number_all n l)) =
  Ok (map (fun p => (fst (fst p), map snd (snd p)))
          (combine l (results_in (map (fun f : string * list job => core (fst f) (snd f)) l)))).
Proof.
  revert n. induction l as [|[f js] l IH]; intros n Il E U; [reflexivity|].
  cbn [number_all map fst snd mapM errors_of results_in combine] in *.
  assert (I : In (f, number_jobs n js) npf) by (apply Il; now left).
  assert (U' : forall t, In t (map (fun f : string * list job => core (fst f) (snd f)) l) -> t <> UB)
    by (intros t It; apply U; now right).
  pose proof (core_renamed f n js) as C. pose proof (core_names f js) as Nm.
  destruct (core f js) as [out|e|]; [|discriminate|exfalso; exact (U UB (or_introl eq_refl) eq_refl)].
  cbn [renamed omap obind] in C. unfold read_file at 1. cbn [fst snd].
  rewrite (order_fixed f _ I), (read_result f _ _ I C). cbn [obind].
  rewrite IH by (auto; intros x Ix; apply Il; now right). cbn [obind combine map fst snd]. do 2 f_equal.
  f_equal. rewrite snd_combine; [reflexivity|].
  rewrite !map_length, number_jobs_length. specialize (Nm out eq_refl).
  apply (f_equal (@length string)) in Nm. rewrite !map_length in Nm. symmetry. exact Nm.
Qed.

Notation answer_of m := (engine_forward_extract what sorter A aec cache_get files build_info pieces fresh forward cfg m).
Lemma shape_lengths {X Y} (l : list (string * list X)) (l' : list (string * list Y)) :
  map (fun f => (fst f, length (snd f))) l = map (fun f => (fst f, length (snd f))) l' -> shape l = shape l'.
Proof.
  intros E. unfold shape, lenN.
  rewrite <- (map_map (fun f : string * list X => (fst f, length (snd f))) (fun p => (fst p, N.of_nat (snd p)))).
  rewrite E, map_map. reflexivity.
Qed.
Theorem server_answer : (forall t, In t cts -> t <> UB) ->
  exists res, answer_of (map received_file (map (to_wire (F := F)) pf)) = Ok (res, map what (errors_of cts)) /\
    shape res = shape pf /\
    (errors_of cts = [] -> res = map (fun p => (fst (fst p), map snd (snd p))) (combine pf (results_in cts))).
Proof.
  intros U. destruct read_all as (res & E & L). exists res. split; [|split].
  - unfold engine_forward_extract. rewrite srv_named, fm_named, srv_sched_tasks, run_tasks_eq.
    + cbn [obind]. fold after. rewrite fm_order.
      change (mapM _ fm) with (mapM read_file fm). rewrite E. cbn [obind]. unfold npf. now rewrite errors_renamed.
    + intros t It ->. unfold npf in It. apply ub_renamed in It. exact (U UB It eq_refl).
  - apply shape_lengths. rewrite L. apply number_all_shape.
  - intros E0. unfold npf in E. rewrite (read_all_ok 0 pf (incl_refl _) E0 U) in E. now injection E.
Qed.
Theorem server_ub : In UB cts -> answer_of (map received_file (map (to_wire (F := F)) pf)) = UB.
Proof.
  intros U. unfold engine_forward_extract. rewrite srv_named, fm_named, srv_sched_tasks, run_tasks_ub; [reflexivity|].
  now apply ub_renamed.
Qed.
End Server.
