(** Properties C16, C17, C58: the Git hooks. *)
From Verif Require Import Base TextModel EventLogModel EventLogSpec EventLogRefProofs StrModel StrProofs
  HookModel HookSpec HookProofs.
Local Open Scope string_scope.
Local Open Scope list_scope.

(** ** C16: reference transactions *)

(** The events of a committed transaction are the ones described line by line. *)
Theorem c16_transaction : forall utf8 resolve file ts tx stdin ls es,
  readable utf8 file -> pieces LF stdin ls ->
  hook_reference_transaction utf8 resolve file ts tx "committed" stdin = Some es <->
  recorded utf8 resolve file ts tx ls es.
Proof. exact hook_records. Qed.

(** Anything but a committed transaction is ignored. *)
Theorem c16_uncommitted : forall utf8 resolve file ts tx state stdin, state <> "committed" ->
  hook_reference_transaction utf8 resolve file ts tx state stdin = Some [].
Proof. exact hook_uncommitted. Qed.

(** Lines that are not understood or are about other references do not matter,
    wherever they are. *)
Theorem c16_malformed_dropped : forall utf8 resolve file ts tx a l b sa sb es,
  readable utf8 file -> pieces LF sa (a ++ l :: b) -> pieces LF sb (a ++ b) ->
  (forall n old new, describes_update l n old new -> untracked n) ->
  hook_reference_transaction utf8 resolve file ts tx "committed" sa = Some es <->
  hook_reference_transaction utf8 resolve file ts tx "committed" sb = Some es.
Proof.
  intros utf8 resolve file ts tx a l b sa sb es R Pa Pb H.
  rewrite (hook_records _ _ _ _ _ _ _ _ R Pa), (hook_records _ _ _ _ _ _ _ _ R Pb).
  clear Pa Pb. revert es. induction a as [|x a IH]; intros es; cbn [app].
  - split; [|now constructor]. inversion 1; subst; [assumption|]. exfalso. eauto.
  - split; inversion 1; subst; try (constructor; [assumption|now apply IH]);
      eapply rec_line; try eassumption; now apply IH.
Qed.

(** If everything named can be resolved, the transaction is recorded. *)
Theorem c16_transaction_total_partial : forall utf8 resolve file ts tx stdin ls,
  readable utf8 file -> pieces LF stdin ls ->
  (forall l n old new, l ∈ ls -> describes_update l n old new -> ~ untracked n ->
     (exists o, stands_for resolve old o) /\ (exists o, stands_for resolve new o)) ->
  exists es, hook_reference_transaction utf8 resolve file ts tx "committed" stdin = Some es.
Proof.
  intros utf8 resolve file ts tx stdin ls R P H. destruct (recorded_total utf8 resolve file ts tx ls R H) as [es Hes].
  exists es. now apply (hook_records utf8 resolve file ts tx stdin ls es R P).
Qed.

(** Packing references is not recorded as a movement of any of them. *)
Theorem c16_packing : forall utf8 resolve file refs ts tx stdin ls log,
  readable utf8 file -> pieces LF stdin ls ->
  (forall n o, (n, o) ∈ refs -> oid_ok o /\ lacks " " n /\ packed_at file n (NonZero o)) ->
  (forall l, l ∈ ls -> l ∈ packing_lines refs) ->
  (forall n o, (n, o) ∈ refs -> ~ untracked n -> last_update log n (NonZero o)) ->
  exists es, hook_reference_transaction utf8 resolve file ts tx "committed" stdin = Some es /\
    forall n m, last_update (log ++ es) n m <-> last_update log n m.
Proof. exact packing_silent. Qed.

(** The rest of the claim is false: a line that makes a reference point to a
    branch without commits discards the lines next to it. *)
Definition ex_a : string := oid_to_string 10%N.
Definition ex_b : string := oid_to_string 11%N.
Definition ex_line (old new n : string) : string := old +:+ " " +:+ new +:+ " " +:+ n.
Theorem c16_lines_independent_refuted : exists resolve l1 l2 e,
  hook_reference_transaction (fun _ => true) resolve None 1%Z (TxId 1) "committed" (unlines [l1]) = Some [e] /\
  hook_reference_transaction (fun _ => true) resolve None 1%Z (TxId 1) "committed" (unlines [l1; l2]) = None.
Proof.
  exists (fun _ => None), (ex_line ex_a ex_b "refs/heads/foo"),
    (ex_line "ref:refs/heads/foo" "ref:refs/heads/unborn" "HEAD"),
    (RefUpdateEvent 1%Z (TxId 1) "refs/heads/foo" (NonZero 10%N) (NonZero 11%N) None).
  split; vm_compute; reflexivity.
Qed.

(** A transaction with a real update, a malformed line, an ignored reference and
    the two lines of a packed reference. *)
Definition ex_packed : string := unlines ["# pack-refs with: peeled"; ex_b +:+ " refs/heads/bar"; "^" +:+ ex_a].
Example c16_example :
  hook_reference_transaction (fun _ => true) (fun _ => None) (Some ex_packed) 1%Z (TxId 1) "committed"
    (unlines [ex_line ex_a ex_b "refs/heads/foo"; "garbage"; ex_line ex_a ex_b "ORIG_HEAD";
              ex_line zeros ex_b "refs/heads/bar"; ex_line ex_b zeros "refs/heads/bar"; ex_line zeros ex_a "refs/heads/bar"])
  = Some [RefUpdateEvent 1%Z (TxId 1) "refs/heads/foo" (NonZero 10%N) (NonZero 11%N) None;
          RefUpdateEvent 1%Z (TxId 1) "refs/heads/bar" (NonZero 11%N) (NonZero 11%N) None;
          RefUpdateEvent 1%Z (TxId 1) "refs/heads/bar" (NonZero 11%N) (NonZero 11%N) None;
          RefUpdateEvent 1%Z (TxId 1) "refs/heads/bar" Zero (NonZero 10%N) None].
Proof. vm_compute. reflexivity. Qed.
(** The hypotheses of [c16_packing] can be met. *)
Example c16_packing_example :
  let refs := [("refs/heads/bar", 11%N)] in
  let stdin := unlines (packing_lines refs) in
  let log := [RefUpdateEvent 1%Z (TxId 1) "refs/heads/bar" Zero (NonZero 11%N) None] in
  readable (fun _ => true) (Some ex_packed) /\ pieces LF stdin (packing_lines refs) /\
  (forall n o, (n, o) ∈ refs -> oid_ok o /\ lacks " " n /\ packed_at (Some ex_packed) n (NonZero o)) /\
  (forall n o, (n, o) ∈ refs -> ~ untracked n -> last_update log n (NonZero o)).
Proof.
  cbv zeta. split_and!.
  - intros text _. apply Forall_forall. reflexivity.
  - apply buf_split_spec. vm_compute. reflexivity.
  - intros n o H. apply elem_of_list_singleton in H. injection H as -> ->. split_and!.
    + unfold oid_ok, oid_limit. lia.
    + apply (bool_decide_unpack _). vm_compute. exact I.
    + exists ex_packed, ["# pack-refs with: peeled"], (ex_b +:+ " refs/heads/bar"), ["^" +:+ ex_a].
      split_and!; [reflexivity|vm_compute; reflexivity| |].
      * apply packed_line_spec. vm_compute. reflexivity.
      * intros l m' H. apply elem_of_list_singleton in H. subst l. rewrite <- packed_line_spec. vm_compute. discriminate.
  - intros n o H _. apply elem_of_list_singleton in H. injection H as -> ->.
    exists [], 1%Z, (TxId 1), Zero, None, []. split; [reflexivity|]. intros e H. now apply elem_of_nil in H.
Qed.

(** ** C17: the list of rewritten commits *)

Theorem c17_round_trip : forall l, Forall (fun e => oid_ok (fst e) /\ moid_ok (snd e)) l ->
  read_rewritten_list (write_rewritten_list l) = Some l.
Proof. exact rewritten_round_trip. Qed.

(** Adding entries, for a list in which no commit is rewritten twice. *)
Theorem c17_add_entries_partial : forall iter text cur es, (forall m, iter m ≡ₚ map_to_list m) ->
  Forall (fun e => oid_ok (fst e) /\ moid_ok (snd e)) es ->
  read_rewritten_list text = Some cur -> NoDup (map fst cur) ->
  exists text' l', add_rewritten_list_entries iter (Some text) es = Some text' /\
    read_rewritten_list text' = Some l' /\ put_entries cur es l' /\ NoDup (map fst l').
Proof.
  intros iter text cur es Hi F R Nd. destruct (put_entries_spec iter text cur es Hi F R Nd) as (t & l & H1 & H2 & H3).
  exists t, l. split_and!; auto. eapply put_entries_keys; eassumption.
Qed.

(** A skipped commit is in the list once, as deleted, and nothing else changes. *)
Theorem c17_skipped_once : forall iter o s text cur, (forall m, iter m ≡ₚ map_to_list m) -> oid_ok o ->
  hs_rewritten s = Some text -> read_rewritten_list text = Some cur -> NoDup (map fst cur) ->
  exists s' text' l', hook_skip_upstream_applied_commit iter o s = Some s' /\ hs_rewritten s' = Some text' /\
    read_rewritten_list text' = Some l' /\ NoDup (map fst l') /\ (o, Zero) ∈ l' /\
    forall o' m, o' <> o -> (o', m) ∈ l' <-> (o', m) ∈ cur.
Proof. exact skip_spec. Qed.

(** With two entries about one commit, only the first is replaced. *)
Theorem c17_add_entries_refuted : exists iter text cur es text' l', (forall m, iter m ≡ₚ map_to_list m) /\
  read_rewritten_list text = Some cur /\ add_rewritten_list_entries iter (Some text) es = Some text' /\
  read_rewritten_list text' = Some l' /\ ~ put_entries cur es l'.
Proof.
  exists map_to_list, (write_rewritten_list [(10%N, NonZero 11%N); (10%N, NonZero 12%N)]),
    [(10%N, NonZero 11%N); (10%N, NonZero 12%N)], [(10%N, Zero)],
    (write_rewritten_list [(10%N, Zero); (10%N, NonZero 12%N)]), [(10%N, Zero); (10%N, NonZero 12%N)].
  split_and!; [reflexivity|vm_compute; reflexivity|vm_compute; reflexivity|vm_compute; reflexivity|].
  intros (l1 & l2 & E & F & _).
  inversion F as [|? ? ? ? _ F1]; subst. inversion F1 as [|? z ? ? [_ H] F2]; subst. inversion F2; subst.
  cbn in E. injection E as _ <- _. cbn in H. destruct H as [(b & a & E & _)|[_ N]].
  - destruct b as [|? [|]]; discriminate.
  - apply (N Zero). left.
Qed.

Example c17_example :
  add_rewritten_list_entries map_to_list (Some (write_rewritten_list [(10%N, NonZero 11%N); (12%N, NonZero 13%N)]))
    [(12%N, Zero); (14%N, Zero)]
  = Some (write_rewritten_list [(10%N, NonZero 11%N); (12%N, Zero); (14%N, Zero)]).
Proof. vm_compute. reflexivity. Qed.

(** ** C58: commits made during a rebase *)

(** While the rebase is underway, and if it is abandoned, nothing is recorded. *)
Theorem c58_nothing_before_completion : forall s os s', rebase_run (start_rebase s) os s' ->
  hs_log s' = hs_log s /\ hs_log (end_rebase s') = hs_log s.
Proof. exact rebase_silent. Qed.

(** When it completes, the commits are recorded in order, then the rewrites. *)
Theorem c58_completion : forall s os s' ts tx stdin l, Forall oid_ok os ->
  rebase_run (start_rebase s) os s' -> read_rewritten_list stdin = Some l ->
  let '(s'', ok) := hook_post_rewrite ts tx "rebase" stdin s' in
  ok = true /\ hs_log s'' = hs_log s ++ map (CommitEvent ts tx) os ++
    map (fun e => RewriteEvent ts tx (NonZero (fst e)) (snd e)) l.
Proof. exact rebase_complete. Qed.

(** Outside of a rebase, commits and rewrites are recorded at once. *)
Theorem c58_outside_rebase : forall ts tx s o stdin l, hs_rebase s = false -> hs_deferred s = None ->
  (hs_head s = Some o -> hs_log (hook_post_commit ts tx s) = hs_log s ++ [CommitEvent ts tx o]) /\
  (read_rewritten_list stdin = Some l -> forall kind,
     hs_log (fst (hook_post_rewrite ts tx kind stdin s)) =
     hs_log s ++ map (fun e => RewriteEvent ts tx (NonZero (fst e)) (snd e)) l).
Proof.
  intros ts tx s o stdin l R D. split.
  - intros H. unfold hook_post_commit. rewrite H, R. reflexivity.
  - intros H kind. unfold hook_post_rewrite. rewrite R, D, H, andb_false_r. cbn. now rewrite app_nil_r.
Qed.

(** The commit just made is taken back exactly when it has one parent with the same
    contents; then it and the commit it comes from are listed as deleted. *)
Theorem c58_drop_if_empty : forall iter find old s s' h, (forall m, iter m ≡ₚ map_to_list m) ->
  hs_head s = Some h -> hook_drop_commit_if_empty iter find old s = Some s' ->
  let empty p := exists c pc, find h = Some c /\ commit_parents c = [p] /\ find p = Some pc /\
                   commit_tree c = commit_tree pc in
  ((forall p, ~ empty p) -> s' = s) /\
  (forall p, empty p -> hs_head s' = Some p /\
     (hs_orig_head s = Some old -> hs_updated_head s' = Some (oid_to_string p)) /\
     (hs_orig_head s <> Some old -> hs_updated_head s' = hs_updated_head s) /\
     forall text cur, hs_rewritten s = Some text -> read_rewritten_list text = Some cur -> NoDup (map fst cur) ->
       oid_ok old -> oid_ok h ->
       exists text' l', hs_rewritten s' = Some text' /\ read_rewritten_list text' = Some l' /\
         put_entries cur [(old, Zero); (h, Zero)] l').
Proof.
  intros iter find old s s' h Hi H E empty. revert E. unfold hook_drop_commit_if_empty. rewrite H.
  assert (Em : forall c, find h = Some c -> commit_is_empty find c = true <-> exists p, empty p).
  { intros c Hc. unfold commit_is_empty, empty. split.
    - destruct (commit_parents c) as [|p [|]] eqn:Ep; try discriminate.
      destruct (find p) as [pc|] eqn:Epc; [|discriminate]. intros Ht. apply N.eqb_eq in Ht. eauto 8.
    - intros (p & c' & pc & H1 & H2 & H3 & H4). assert (c' = c) as -> by congruence. rewrite H2, H3. now apply N.eqb_eq. }
  destruct (find h) as [c|] eqn:Ec.
  2: { intros [= <-]. split; [reflexivity|]. intros p (c & pc & H1 & _). congruence. }
  specialize (Em c eq_refl). destruct (commit_is_empty find c) eqn:Ee; cbn [negb].
  2: { intros [= <-]. split; [reflexivity|]. intros p Hp. enough (false = true) by discriminate. apply Em. eauto. }
  destruct Em as [Em _]. destruct (Em eq_refl) as (p & c' & pc & H1 & H2 & H3 & H4).
  assert (c' = c) as -> by congruence. rewrite H2. cbv zeta.
  destruct (add_rewritten_list_entries iter (hs_rewritten s) [(old, Zero); (h, Zero)]) as [text'|] eqn:A; [|discriminate].
  intros [= <-]. split. { intros N. destruct (N p). unfold empty. eauto 8. }
  intros p' (c'' & pc' & X1 & X2 & _). assert (p' = p) as -> by congruence. cbn. split_and!.
  - reflexivity.
  - intros ->. now rewrite N.eqb_refl.
  - intros N. destruct (hs_orig_head s) as [oh|]; [|reflexivity]. destruct (N.eqb_spec oh old); [congruence|reflexivity].
  - intros text cur Ht Hc Nd O1 O2. rewrite Ht in A.
    destruct (put_entries_spec iter text cur [(old, Zero); (h, Zero)] Hi) as (t & l' & B1 & B2 & B3); [|exact Hc|exact Nd|].
    + constructor; [split; [exact O1|exact I]|]. constructor; [split; [exact O2|exact I]|]. constructor.
    + exists text', l'. split_and!; [reflexivity| |exact B3]. congruence.
Qed.

(** Two commits, of which the second turns out empty. *)
Definition ex_state : hook_state := mk_hooks [CommitEvent 0%Z (TxId 1) 9%N] false None None (Some 9%N) None None.
Definition ex_find (o : oid) : option commit :=
  if N.eqb o 20 then Some (mk_commit [8%N] 100%N) else if N.eqb o 21 then Some (mk_commit [20%N] 100%N) else None.
Example c58_example : exists s', rebase_run (start_rebase ex_state) [20; 21]%N s' /\
  hs_head s' = Some 20%N /\ hs_updated_head s' = Some (oid_to_string 20%N) /\
  hs_log (fst (hook_post_rewrite 5%Z (TxId 2) "rebase" (match hs_rewritten s' with Some t => t | None => "" end) s')) =
  [CommitEvent 0%Z (TxId 1) 9%N; CommitEvent 5%Z (TxId 2) 20%N; CommitEvent 5%Z (TxId 2) 21%N;
   RewriteEvent 5%Z (TxId 2) (NonZero 9%N) Zero; RewriteEvent 5%Z (TxId 2) (NonZero 21%N) Zero].
Proof.
  eexists. split.
  - eapply (fun x y z => run_step x y z [20%N] [21%N]); [apply (step_commit 1%Z (TxId 2))|].
    eapply (fun x y z => run_step x y z [21%N] []); [apply (step_commit 2%Z (TxId 2))|].
    eapply (fun x y z => run_step x y z [] []); [|apply run_end].
    apply (step_drop map_to_list ex_find 9%N). vm_compute. reflexivity.
  - vm_compute. split_and!; reflexivity.
Qed.

Print Assumptions c16_transaction.
Print Assumptions c16_malformed_dropped.
Print Assumptions c16_packing.
Print Assumptions c16_lines_independent_refuted.
Print Assumptions c17_round_trip.
Print Assumptions c17_add_entries_partial.
Print Assumptions c17_add_entries_refuted.
Print Assumptions c17_skipped_once.
Print Assumptions c58_nothing_before_completion.
Print Assumptions c58_completion.
Print Assumptions c58_drop_if_empty.
