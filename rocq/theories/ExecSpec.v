(** What a successful rebase makes of the commits. *)
From Verif Require Import Base TextModel DagModel DagSpec StrModel HookModel PlanModel PlanSpec ExecModel.
Local Open Scope string_scope.
Local Open Scope list_scope.

(** Names stand for contents. *)
Definition faithful_names (ee : exec_env) : Prop := forall x y, ee_hash ee x = ee_hash ee y -> x = y.
Definition named (ee : exec_env) (st : store) : Prop := forall o x, st !! o = Some x -> ee_hash ee x = o.

(** A commit with new parents and tree and otherwise like [orig]. *)
Definition remade (ee : exec_env) (orig : object) (ps : list oid) (t : oid) : object :=
  mk_object (mk_commit ps t) (ob_author orig) (ee_stamp ee (ob_committer orig)) (ob_message orig).

(** [x] has the changes of these commits, one after the other, on top of [q]. *)
Inductive squashes (ee : exec_env) (q : oid) (orig : object) : list oid -> object -> Prop :=
| squash_first c t : ee_pick ee c q = MadeTree t -> squashes ee q orig [c] (remade ee orig [q] t)
| squash_more l x c t : squashes ee q orig l x -> ee_amend ee (ee_hash ee x) c = MadeTree t ->
    squashes ee q orig (l ++ [c]) (remade ee orig [q] t).

(** Each commit is there once, where the sorting of commits puts it. *)
Definition put_in_order (e : plan_env) (l : list oid) : Prop := NoDup l /\ exists s : commit_set, l = pe_sort e s.

Section outcomes.
Context (d : dag) (cs : list constraint) (rw : gmap oid moid).

(** [c] is rebuilt on top of (what becomes of) [p]. *)
Definition rebuilt_on (p c : oid) : Prop :=
  new_parent d cs p c \/
  (fixup_target cs c /\ ~ moves d cs c /\ parent (dag_graph d) p c) \/
  (merge_commit (dag_graph d) c /\ rebuilt d cs c /\ parent (dag_graph d) p c).

(** [q] stands for [p] afterwards: [p] itself, its new version, or what stands for
    the commit below when [p] was skipped. *)
Inductive lands : oid -> oid -> Prop :=
| lands_kept p : rw !! p = None -> lands p p
| lands_new p q : rw !! p = Some (NonZero q) -> lands p q
| lands_skipped p p' q : rw !! p = Some Zero -> rebuilt_on p' p -> lands p' q -> lands p q.
End outcomes.

(** The three things that can become of a commit ([land] says what stands for a
    commit afterwards). *)
Inductive fate_with (land : oid -> oid -> Prop) (d : dag) (cs : list constraint) (e : plan_env) (ee : exec_env)
  (rw : gmap oid moid) (st : store) (c : oid) : Prop :=
(** skipped: applied upstream, or nothing is left of it *)
| fate_skipped p q :
    rw !! c = Some Zero -> ~ merge_commit (dag_graph d) c -> rebuilt_on d cs p c -> land p q ->
    ((exists r, pe_upstream e r c = true) \/
     pe_replace e !! c = None /\ exists orig qx l x, st !! c = Some orig /\ st !! q = Some qx /\
       (forall f, f ∈ l <-> f = c \/ FixUpCommit c f ∈ cs) /\ put_in_order e l /\ squashes ee q orig l x /\
       commit_tree (ob_commit x) = commit_tree (ob_commit qx)) ->
    fate_with land d cs e ee rw st c
(** made anew on top of what its parent became *)
| fate_picked p q n orig l x qx :
    rw !! c = Some (NonZero n) -> ~ merge_commit (dag_graph d) c -> pe_replace e !! c = None ->
    rebuilt_on d cs p c -> land p q ->
    st !! n = Some x -> st !! c = Some orig -> st !! q = Some qx ->
    (forall f, f ∈ l <-> f = c \/ FixUpCommit c f ∈ cs) -> put_in_order e l -> squashes ee q orig l x ->
    commit_tree (ob_commit x) <> commit_tree (ob_commit qx) ->
    fate_with land d cs e ee rw st c
(** replaced by another commit, with the parents as they became *)
| fate_replaced n r orig ps qs :
    rw !! c = Some (NonZero n) -> pe_replace e !! c = Some r ->
    st !! r = Some orig -> st !! n = Some (remade ee orig qs (commit_tree (ob_commit orig))) ->
    Forall2 land ps qs ->
    (merge_commit (dag_graph d) c -> ps = parents_of (dag_graph d) c) ->
    (~ merge_commit (dag_graph d) c -> exists p, ps = [p] /\ rebuilt_on d cs p c) ->
    fate_with land d cs e ee rw st c.
Definition fate (d : dag) (cs : list constraint) (e : plan_env) (ee : exec_env) (rw : gmap oid moid) : store -> oid -> Prop :=
  fate_with (lands d cs rw) d cs e ee rw.

(** Nothing that stays is put on top of a commit that is squashed away, and
    replacements have the parents that are asked for. *)
Definition clear_of_fixups (d : dag) (cs : list constraint) : Prop :=
  forall p c, rebuilt_on d cs p c -> ~ fixed_up cs c -> ~ fixed_up cs p.
Definition replacements_fit (d : dag) (e : plan_env) (cs : list constraint) : Prop :=
  forall c r rc, ~ merge_commit (dag_graph d) c -> rebuilt d cs c ->
    pe_replace e !! c = Some r -> pe_find e r = Some rc ->
    exists p, commit_parents rc = [p] /\ rebuilt_on d cs p c.

(** What a successful rebase did. *)
Record carried_out (d : dag) (cs : list constraint) (e : plan_env) (ee : exec_env) (st st' : store)
  (rw : gmap oid moid) (head : option oid) : Prop := {
  co_store : st ⊆ st';
  co_fate : forall c, rebuilt d cs c -> ~ fixed_up cs c -> fate d cs e ee rw st' c;
  co_rest : forall c, is_Some (rw !! c) -> rebuilt d cs c \/ fixed_up cs c;
  co_fixup : forall f n, fixed_up cs f -> rw !! f = Some (NonZero n) ->
    exists t, FixUpCommit t f ∈ cs /\ ~ fixed_up cs t /\ rw !! t = Some (NonZero n);
  co_into : forall t f n, FixUpCommit t f ∈ cs -> ~ fixed_up cs t -> pe_replace e !! t = None ->
    (forall t', FixUpCommit t' f ∈ cs -> t' = t) -> (forall r, pe_upstream e r f = false) ->
    rw !! t = Some (NonZero n) -> rw !! f = Some (NonZero n);
  co_head : forall h, ee_head ee = Some h -> ~ fixed_up cs h -> exists q, head = Some q /\ lands d cs rw h q;
  co_unborn : ee_head ee = None -> head = None }.

(** A commit that can be read. *)
Definition there (st : store) (o : oid) : Prop := is_Some (st !! o).
Definition readable (ee : exec_env) (st : store) (o : oid) : Prop :=
  exists x, st !! o = Some x /\ ee_decodes ee (ob_message x) = true.

(** Everything the plan is about is in the repository. *)
Record present (d : dag) (e : plan_env) (ee : exec_env) (cs : list constraint) (st : store) : Prop := {
  pr_find : forall c x, pe_find e c = Some x -> find_object st c = Some x;
  pr_readable : forall c, c ∈ vertices (dag_graph d) -> readable ee st c;
  pr_dest : forall p c, new_parent d cs p c -> there st p;
  pr_fixup : forall f, fixed_up cs f -> there st f;
  pr_replace : forall c r, pe_replace e !! c = Some r -> readable ee st r /\
    forall rc p, pe_find e r = Some rc -> p ∈ commit_parents rc -> there st p }.

(** Why a rebase stops at [c]: it is a merge, or its changes conflict. *)
Definition merge_in (st : store) (c : oid) : Prop := exists x, st !! c = Some x /\ is_merge (ob_commit x) = true.
Definition stopped_by (ee : exec_env) (st : store) (c : oid) : Prop :=
  merge_in st c \/ (exists q, ee_pick ee c q = Conflict) \/ (exists r, ee_amend ee r c = Conflict).

(** What a user sees of a repository (objects that nothing refers to are not seen). *)
Definition same_visible (r r' : repo) : Prop :=
  rp_refs r' = rp_refs r /\ rp_head r' = rp_head r /\ rp_lines r' = rp_lines r /\
  rp_rewrites r' = rp_rewrites r /\ rp_checkout r' = rp_checkout r.

(** Where a reference is after commits were rewritten. *)
Definition branch_after (b : branch_env) (rw : gmap oid moid) (refs : gmap refname oid) (n : refname) : option oid :=
  match refs !! n with
  | None => None
  | Some o =>
      if is_local n then
        match rw !! o with
        | None => Some o
        | Some (NonZero o') => Some o'
        | Some Zero => if decide (n = be_main b) then match be_upstream b with Some t => t | None => Some o end else None
        end
      else Some o
  end.

(** A table of the local branches. *)
Record branch_table (groups : list (oid * list refname)) (refs : gmap refname oid) : Prop := {
  bt_in : forall n o, (exists ns, (o, ns) ∈ groups /\ n ∈ ns) <-> refs !! n = Some o /\ is_local n = true;
  bt_once : NoDup (List.concat (List.map snd groups)) }.

(** The references after the updates that were announced. *)
Definition announced (refs : gmap refname oid) (ls : list (oid * moid * refname)) : gmap refname oid :=
  fold_left (fun m l => match l with
                        | (_, NonZero o, n) => <[n := o]> m
                        | (_, Zero, n) => delete n m
                        end) ls refs.

(** The commit that HEAD is at after the check-out. *)
Definition final_head (r : repo) : option oid :=
  match rp_checkout r with
  | StayPut => hi_oid (rp_head r)
  | CheckOutCommit o => Some o
  | CheckOutBranch n => rp_refs r !! n
  end.

(** The words that tell [git rebase] what to do. *)
Definition place_text (t : oid_or_label) : string := match t with AtOid o => oid_to_string o | AtLabel l => l end.
Definition instruction (x : command) : list string :=
  let hook name args := ["exec"; "git"; "branchless"; name] ++ args in
  match x with
  | CreateLabel l => ["label"; l]
  | Reset_ t => ["reset"; place_text t]
  | Pick _ l => "pick" :: List.map oid_to_string l
  | Merge c ts => ["merge"; "-C"; oid_to_string c] ++ List.map place_text ts
  | Replace _ _ _ => []
  | Break_ => ["break"]
  | RegisterExtra => hook "hook-register-extra-post-rewrite-hook" []
  | DetectEmpty c => hook "hook-detect-empty-commit" [oid_to_string c]
  | SkipUpstream c => hook "hook-skip-upstream-applied-commit" [oid_to_string c]
  end.
