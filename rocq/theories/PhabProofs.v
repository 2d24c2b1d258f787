(** Proofs about submitting to Phabricator: links in messages, statuses and dependencies. *)
From stdpp Require Import relations.
From Verif Require Import Base TextModel EventLogModel EventLogSpec EvolveSpec DagModel DagSpec DagProofs DagCompProofs StrModel StrProofs HookModel PlanModel PlanSpec
  ExecModel ExecSpec HideModel HideSpec RestackModel RestackSpec SyncModel SyncSpec MoveModel MoveSpec TestCacheModel RewordCmdModel RewordCmdSpec SubmitModel PhabModel PhabSpec.
From Coq Require Import Ascii.
From Verif Require Import EventLogRefProofs.
Local Open Scope string_scope.
Local Open Scope list_scope.

(** ** Links *)
Lemma is_digit_spec c : is_digit c = true <-> digit c.
Proof.
  unfold is_digit, digit. split.
  - intros H. exists (nat_of_ascii c - 48). destruct c as [b0 b1 b2 b3 b4 b5 b6 b7].
    destruct b0, b1, b2, b3, b4, b5, b6, b7; vm_compute in H; try discriminate; (split; [vm_compute; lia|reflexivity]).
  - intros (n & L & ->). do 10 (destruct n as [|n]; [reflexivity|]). lia.
Qed.
Lemma all_digits_spec s : all_digits s = true <-> digits s.
Proof. induction s as [|c s IH]; cbn [all_digits digits]; [tauto|]. rewrite andb_true_iff, is_digit_spec, IH. reflexivity. Qed.
Lemma number_spec s i : number s = Some i <-> i <> "" /\ digits i /\ s = "D" +:+ i.
Proof.
  unfold number. destruct s as [|c [|a s]].
  - split; [discriminate|]. intros (_ & _ & H). discriminate.
  - split; [discriminate|]. intros (N & _ & H). injection H as _ <-. contradiction.
  - destruct (Ascii.eqb c "D") eqn:E; cbn [andb].
    + apply Ascii.eqb_eq in E. subst c. destruct (all_digits (String a s)) eqn:D.
      * apply all_digits_spec in D. split; [intros [= <-]; split_and!; [discriminate|exact D|reflexivity]|]. intros (_ & _ & H). injection H as <-. reflexivity.
      * split; [discriminate|]. intros (_ & Dg & H). injection H as <-. apply all_digits_spec in Dg. congruence.
    + split; [discriminate|]. intros (_ & _ & H). injection H as -> _. discriminate.
Qed.
Lemma digits_no (c : ascii) s : digits s -> ~ digit c -> forall a b, s <> a +:+ String c b.
Proof.
  intros D N a. revert s D. induction a as [|x a IH]; intros s D b E; subst s; cbn in D.
  - exact (N (proj1 D)).
  - exact (IH _ (proj2 D) b eq_refl).
Qed.
Lemma not_digit_D : ~ digit "D". Proof. intros H. apply is_digit_spec in H. discriminate. Qed.
Lemma tail_unique q q' i i' : digits i -> digits i' -> q +:+ "D" +:+ i = q' +:+ "D" +:+ i' -> i = i'.
Proof.
  intros D D'. revert q'. induction q as [|c q IH]; intros [|c' q'] E.
  - now injection E.
  - injection E as _ E. exfalso. exact (digits_no "D" i D not_digit_D q' i' E).
  - injection E as _ E. exfalso. exact (digits_no "D" i' D' not_digit_D q i (eq_sym E)).
  - injection E as _ E. exact (IH q' E).
Qed.
Lemma after_slash_spec s i : after_slash s = Some i <-> i <> "" /\ digits i /\ exists q, s = q +:+ "/" +:+ "D" +:+ i.
Proof.
  revert i. induction s as [|c s IH]; intros i; cbn [after_slash].
  - split; [discriminate|]. intros (_ & _ & q & H). destruct q; discriminate.
  - destruct (after_slash s) as [j|] eqn:E.
    + pose proof (proj1 (IH j) eq_refl) as (N & D & q & H). split.
      * intros [= <-]. split_and!; auto. exists (String c q). now rewrite H.
      * intros (N' & D' & [|c' q'] & H').
        -- injection H' as _ H'. rewrite H' in H. f_equal. change ("" +:+ "D" +:+ i = q +:+ "/" +:+ "D" +:+ j) in H.
           assert (X : "" +:+ "D" +:+ i = (q +:+ "/") +:+ "D" +:+ j) by (rewrite H; now rewrite sapp_assoc). symmetry. exact (tail_unique _ _ _ _ D' D X).
        -- injection H' as _ H'. rewrite <- (proj2 (IH i)); [reflexivity|]. split_and!; eauto.
    + assert (Nn : forall q, i <> "" -> digits i -> s <> q +:+ "/" +:+ "D" +:+ i). { intros q N D H. assert (None = Some i) by (apply IH; eauto). discriminate. }
      destruct (Ascii.eqb c "/") eqn:Ec.
      * apply Ascii.eqb_eq in Ec. subst c. rewrite number_spec. split.
        -- intros (N & D & ->). split_and!; auto. now exists "".
        -- intros (N & D & [|c q] & H); [injection H as ->; auto|]. injection H as _ H. exfalso. exact (Nn q N D H).
      * split; [discriminate|]. intros (N & D & [|c' q] & H); injection H as H1 H2; [subst c; discriminate|]. exfalso. exact (Nn q N D H2).
Qed.
Lemma id_in_rest_spec s i : id_in_rest s = Some i <-> i <> "" /\ digits i /\ exists pre, s = pre +:+ "D" +:+ i /\ (pre = "" \/ exists q, q <> "" /\ pre = q +:+ "/").
Proof.
  unfold id_in_rest. destruct s as [|c s].
  - split; [discriminate|]. intros (_ & _ & pre & H & _). destruct pre; discriminate.
  - destruct (after_slash s) as [j|] eqn:E.
    + apply after_slash_spec in E. destruct E as (N & D & q & ->). split.
      * intros [= <-]. split_and!; auto. exists (String c q +:+ "/"). split; [now rewrite sapp_assoc|]. right. exists (String c q). split; [discriminate|reflexivity].
      * intros (N' & D' & pre & H & _). f_equal. apply (tail_unique (String c q +:+ "/") pre j i D D'). rewrite <- H, sapp_assoc. reflexivity.
    + rewrite number_spec. split.
      * intros (N & D & H). split_and!; auto. exists "". auto.
      * intros (N & D & pre & H & [-> |(q & Nq & ->)]); [auto|]. exfalso. destruct q as [|c' q]; [contradiction|]. rewrite sapp_assoc in H. injection H as _ H.
        assert (after_slash s = Some i) by (apply after_slash_spec; split_and!; eauto). congruence.
Qed.
Lemma id_in_line_spec s i : id_in_line s = Some i <-> links s i.
Proof.
  unfold id_in_line, links. destruct (strip_prefix _ s) as [s'|] eqn:E.
  - apply strip_prefix_spec in E. subst s. rewrite id_in_rest_spec. split; intros (N & D & pre & H & P); (split; [exact N|]; split; [exact D|]; exists pre; split; [|exact P]).
    + now rewrite H.
    + apply (f_equal (strip_prefix "Differential Revision: ")) in H. rewrite !(proj2 (strip_prefix_spec _ _ _) eq_refl) in H. now injection H.
  - split; [discriminate|]. intros (_ & _ & pre & -> & _). rewrite (proj2 (strip_prefix_spec _ _ _) eq_refl) in E. discriminate.
Qed.

(** ** Lines *)
Lemma text_lines_ok s : lines_are s (text_lines s).
Proof.
  induction s as [|c s (N & F & E)]; cbn [text_lines].
  - split; [discriminate|]. split; [repeat constructor|reflexivity].
  - destruct (Ascii.eqb c "010") eqn:Ec.
    + apply Ascii.eqb_eq in Ec. subst c. split; [discriminate|]. split; [constructor; [exact I|exact F]|]. destruct (text_lines s) as [|l ls]; [contradiction|].
      cbn [joined]. rewrite E. reflexivity.
    + apply Ascii.eqb_neq in Ec. destruct (text_lines s) as [|l ls]; [contradiction|]. inversion F as [|? ? Fl Fr]; subst. split; [discriminate|]. split; [constructor; [split; assumption|exact Fr]|].
      destruct ls; reflexivity.
Qed.
Lemma text_lines_joined ls : ls <> [] -> Forall no_newline ls -> text_lines (joined ls) = ls.
Proof.
  induction ls as [|l ls IH]; [contradiction|]. intros _ F. inversion F as [|? ? Fl Fr]; subst. clear F. destruct ls as [|l' ls].
  - cbn [joined]. clear IH Fr. induction l as [|c l IHl]; [reflexivity|]. destruct Fl as [Fc Fl]. cbn [text_lines]. rewrite (proj2 (Ascii.eqb_neq c "010") Fc), IHl by exact Fl. reflexivity.
  - specialize (IH ltac:(discriminate) Fr). change (joined (l :: l' :: ls)) with (l +:+ newline +:+ joined (l' :: ls)). set (rest := joined (l' :: ls)) in *. induction l as [|c l IHl].
    + change (text_lines (String "010" rest) = "" :: l' :: ls). cbn [text_lines]. rewrite (Ascii.eqb_refl "010"). f_equal. exact IH.
    + destruct Fl as [Fc Fl]. change (String c l +:+ newline +:+ rest) with (String c (l +:+ newline +:+ rest)). cbn [text_lines].
      rewrite (proj2 (Ascii.eqb_neq c "010") Fc), (IHl Fl). reflexivity.
Qed.
Lemma lines_unique s ls : lines_are s ls <-> ls = text_lines s.
Proof. split; [intros (N & F & ->); now rewrite text_lines_joined|intros ->; apply text_lines_ok]. Qed.
Lemma head_omap {A B} (f : A -> option B) l y : head (omap f l) = Some y <-> exists l1 x l2, l = l1 ++ x :: l2 /\ f x = Some y /\ forall z, z ∈ l1 -> f z = None.
Proof.
  induction l as [|x l IH]; cbn.
  - split; [discriminate|]. intros (l1 & x & l2 & H & _). destruct l1; discriminate.
  - destruct (f x) as [z|] eqn:E; cbn.
    + split.
      * intros [= <-]. exists [], x, l. split; [reflexivity|]. split; [exact E|]. intros w H. now apply elem_of_nil in H.
      * intros ([|w l1] & x' & l2 & H & Hy & N); injection H as -> ->; [congruence|]. rewrite (N w ltac:(left)) in E. discriminate.
    + change (list_omap A B f l) with (omap f l). rewrite IH. split.
      * intros (l1 & x' & l2 & -> & Hy & N). exists (x :: l1), x', l2. split; [reflexivity|]. split; [exact Hy|]. intros w H. apply elem_of_cons in H. destruct H as [->|H]; auto.
      * intros ([|w l1] & x' & l2 & H & Hy & N); injection H as -> ->; [congruence|]. exists l1, x', l2. split; [reflexivity|]. split; [exact Hy|]. intros w' Hw. apply N. now right.
Qed.
Lemma id_in_spec text i : id_in text = Some i <-> text_links text i.
Proof.
  unfold id_in, text_links. rewrite head_omap. split; intros (b & l & a & H & L & N); exists b, l, a.
  - split; [apply lines_unique; now rewrite H|]. split; [now apply id_in_line_spec|]. intros l' j Hl Hj. apply id_in_line_spec in Hj. rewrite (N l' Hl) in Hj. discriminate.
  - split; [symmetry; now apply lines_unique|]. split; [now apply id_in_line_spec|]. intros l' Hl. destruct (id_in_line l') as [j|] eqn:E; [|reflexivity]. apply id_in_line_spec in E. destruct (N l' j Hl E).
Qed.
Lemma id_in_none text : id_in text = None <-> forall i, ~ text_links text i.
Proof.
  split; [intros H i Hi; apply id_in_spec in Hi; congruence|]. intros H. destruct (id_in text) as [i|] eqn:E; [|reflexivity]. apply id_in_spec in E. destruct (H i E).
Qed.
Lemma text_links_unique text i j : text_links text i -> text_links text j -> i = j.
Proof. rewrite <- !id_in_spec. congruence. Qed.
Lemma has_revision_get e st c i : has_revision e st c i <-> get_revision_id e st c = Some (Some i).
Proof.
  unfold has_revision, get_revision_id. split.
  - intros (x & -> & H). f_equal. now apply id_in_spec.
  - destruct (st !! c) as [x|]; [|discriminate]. intros [= H]. exists x. split; [reflexivity|now apply id_in_spec].
Qed.
Lemma has_revision_unique e st c i j : has_revision e st c i -> has_revision e st c j -> i = j.
Proof. rewrite !has_revision_get. congruence. Qed.
Lemma has_revision_more e st st' c i : st ⊆ st' -> has_revision e st c i -> has_revision e st' c i.
Proof. intros S (x & H & L). exists x. split; [exact (lookup_weaken _ _ _ _ H S)|exact L]. Qed.
Lemma has_revision_back e st st' c i : st ⊆ st' -> is_Some (st !! c) -> has_revision e st' c i -> has_revision e st c i.
Proof. intros S [x Hx] (y & H & L). rewrite (lookup_weaken _ _ _ _ Hx S) in H. injection H as <-. exists x. auto. Qed.

(** ** Statuses *)
Lemma hash_of_spec r c : hash_of r = Some c <-> is_for r c.
Proof.
  unfold hash_of, is_for. generalize (rv_hashes r) as l. intros l. induction l as [|[s h] l IH] using rev_ind.
  - cbn. split; [discriminate|]. intros (b & a & H & _). destruct b; discriminate.
  - rewrite rev_app_distr. cbn [rev app List.find fst]. destruct (String.eqb s "gtcm") eqn:E.
    + apply String.eqb_eq in E. subst s. split.
      * intros ->. exists l, []. split; [reflexivity|]. intros h H. now apply elem_of_nil in H.
      * intros (b & a & H & N). destruct a as [|y a _] using rev_ind.
        -- apply app_inj_tail in H. destruct H as [_ H]. now injection H.
        -- rewrite app_comm_cons, app_assoc in H. apply app_inj_tail in H. destruct H as [_ <-]. exfalso. apply (N h). apply elem_of_app. right. left.
    + apply String.eqb_neq in E. rewrite IH. split.
      * intros (b & a & -> & N). exists b, (a ++ [(s, h)]). split; [now rewrite <- app_assoc|]. intros k H. apply elem_of_app in H. destruct H as [H|H]; [exact (N k H)|].
        apply elem_of_list_singleton in H. injection H as H _. congruence.
      * intros (b & a & H & N). destruct a as [|y a _] using rev_ind.
        -- apply app_inj_tail in H. destruct H as [_ H]. injection H as H _. contradiction.
        -- rewrite app_comm_cons, app_assoc in H. apply app_inj_tail in H. destruct H as [-> _]. exists b, a. split; [reflexivity|]. intros k Hk. apply (N k). apply elem_of_app. now left.
Qed.
Definition status_here (e : phab_env) (st : store) (sv : server) (c : oid) : submit_status := phab_status sv c (default None (get_revision_id e st c)).
Lemma phab_statuses_spec e st sv l : match phab_statuses e st sv l with
  | Some m => (forall c, c ∈ l -> is_Some (st !! c)) /\ m = List.map (fun c => (c, mk_cs (status_here e st sv c) None None)) l
  | None => exists c, c ∈ l /\ st !! c = None
  end.
Proof.
  induction l as [|c l IH]; cbn [phab_statuses List.map].
  - split; [intros c H; now apply elem_of_nil in H|reflexivity].
  - destruct (get_revision_id e st c) as [id|] eqn:E.
    + assert (S : is_Some (st !! c)). { unfold get_revision_id in E. destruct (st !! c); [eauto|discriminate]. }
      destruct (phab_statuses e st sv l) as [m|].
      * destruct IH as [I1 ->]. split; [intros a Ha; apply elem_of_cons in Ha; destruct Ha as [->|Ha]; auto|]. unfold status_here at 2. rewrite E. reflexivity.
      * destruct IH as (a & Ha & N). exists a. split; [now right|exact N].
    + exists c. split; [left|]. unfold get_revision_id in E. destruct (st !! c); [discriminate|reflexivity].
Qed.
Lemma status_unsubmitted e st sv c : is_Some (st !! c) -> status_here e st sv c = Unsubmitted <-> forall i, ~ has_revision e st c i.
Proof.
  intros [x Hx]. unfold status_here, get_revision_id. rewrite Hx. cbn [default]. split.
  - intros H i Hi. apply has_revision_get in Hi. unfold get_revision_id in Hi. rewrite Hx in Hi. injection Hi as Hi. rewrite Hi in H. cbn in H. destruct (sv !! i) as [r|]; [|discriminate].
    destruct (hash_of r) as [h|]; [|discriminate]. destruct (decide _); discriminate.
  - intros H. assert (id_in (ph_text e (ob_message x)) = None) as ->; [|reflexivity]. apply id_in_none. intros i Hi. apply (H i). exists x. auto.
Qed.
Lemma status_up_to_date e st sv c : status_here e st sv c = UpToDate <-> exists i r, has_revision e st c i /\ sv !! i = Some r /\ is_for r c.
Proof.
  unfold status_here. split.
  - destruct (get_revision_id e st c) as [[i|]|] eqn:E; cbn; try discriminate. destruct (sv !! i) as [r|] eqn:Er; [|discriminate]. destruct (hash_of r) as [h|] eqn:Eh; [|discriminate].
    destruct (decide (h = c)) as [->|]; [|discriminate]. intros _. exists i, r. split_and!; [now apply has_revision_get|exact Er|now apply hash_of_spec].
  - intros (i & r & Hi & Hr & Hf). apply has_revision_get in Hi. apply hash_of_spec in Hf. rewrite Hi. cbn. rewrite Hr, Hf. now rewrite decide_True.
Qed.
Lemma status_needs e st sv c : is_Some (st !! c) -> status_here e st sv c = NeedsUpdate <-> exists i, has_revision e st c i /\ forall r, sv !! i = Some r -> ~ is_for r c.
Proof.
  intros S. split.
  - intros H. unfold status_here in H. destruct (get_revision_id e st c) as [[i|]|] eqn:E; cbn in H; try discriminate. exists i. split; [now apply has_revision_get|]. intros r Hr Hf.
    apply hash_of_spec in Hf. rewrite Hr, Hf, decide_True in H by reflexivity. discriminate.
  - intros (i & Hi & N). apply has_revision_get in Hi. unfold status_here. rewrite Hi. cbn. destruct (sv !! i) as [r|] eqn:Er; [|reflexivity]. destruct (hash_of r) as [h|] eqn:Eh; [|reflexivity].
    rewrite decide_False; [reflexivity|]. intros ->. apply (N r eq_refl). now apply hash_of_spec.
Qed.

(** ** Dependencies *)
Lemma alter_other (f : revision -> revision) i j (v : server) : i <> j -> alter f i v !! j = v !! j.
Proof. apply (lookup_alter_ne (M := gmap string)). Qed.
Lemma alter_here (f : revision -> revision) i (v : server) : alter f i v !! i = f <$> v !! i.
Proof. apply (lookup_alter (M := gmap string)). Qed.
Definition with_depends (l : list N) (r : revision) : revision := mk_rev (rv_phid r) (rv_hashes r) l.
Definition phids (sv : server) (ids : list string) : list N := omap (fun i => rv_phid <$> sv !! i) ids.
Lemma phids_same sv sv' ids : (forall i, rv_phid <$> sv' !! i = rv_phid <$> sv !! i) -> phids sv' ids = phids sv ids.
Proof. intros H. unfold phids. induction ids as [|i ids IH]; cbn; [reflexivity|]. rewrite (H i). destruct (rv_phid <$> sv !! i); cbn; [f_equal|]; exact IH. Qed.
Lemma phids_elem sv ids j q : told_apart sv -> sv !! j = Some q -> rv_phid q ∈ phids sv ids <-> j ∈ ids.
Proof.
  intros T Hq. unfold phids. rewrite elem_of_list_omap. split.
  - intros (i & Hi & E). destruct (sv !! i) as [r|] eqn:Er; [|discriminate]. cbn in E. injection E as E. now rewrite <- (T i j r q Er Hq E).
  - intros Hj. exists j. split; [exact Hj|]. now rewrite Hq.
Qed.
Lemma parent_revisions_spec e st drafts ps : (forall p, p ∈ ps -> p ∈ drafts -> is_Some (st !! p)) ->
  exists ids, parent_revisions e st drafts ps = Some ids /\ forall j, j ∈ ids <-> exists p, p ∈ ps /\ p ∈ drafts /\ has_revision e st p j.
Proof.
  induction ps as [|p ps IH]; intros H; cbn [parent_revisions].
  - exists []. split; [reflexivity|]. intros j. split; [intros X; now apply elem_of_nil in X|intros (p & X & _); now apply elem_of_nil in X].
  - destruct IH as (ids & E & I); [intros q Hq; apply H; now right|]. destruct (decide (p ∈ drafts)) as [D|D].
    + destruct (H p ltac:(left) D) as [x Hx]. assert (Eg : exists o, get_revision_id e st p = Some o) by (unfold get_revision_id; rewrite Hx; eauto).
      destruct Eg as [[i|] Eg]; rewrite Eg, E.
      * exists (i :: ids). split; [reflexivity|]. intros j. rewrite elem_of_cons, I. split.
        -- intros [->|(q & Hq & R)]; [exists p; split; [left|]; split; [exact D|now apply has_revision_get]|exists q; split; [now right|exact R]].
        -- intros (q & Hq & Dq & R). apply elem_of_cons in Hq. destruct Hq as [->|Hq]; [left|right; eauto]. apply has_revision_get in R. congruence.
      * exists ids. split; [reflexivity|]. intros j. rewrite I. split; intros (q & Hq & Dq & R); exists q; (split; [|auto]).
        -- now right.
        -- apply elem_of_cons in Hq. destruct Hq as [->|Hq]; [|exact Hq]. apply has_revision_get in R. congruence.
    + exists ids. split; [exact E|]. intros j. rewrite I. split; intros (q & Hq & Dq & R); exists q; (split; [|auto]); [now right|].
      apply elem_of_cons in Hq. destruct Hq as [->|Hq]; [contradiction|exact Hq].
Qed.

Section depends.
Context (e : phab_env) (st : store) (drafts : commit_set) (sv : server).
(** Below, [c] depends on the revisions [ids]. *)
Definition wants (c : oid) (ids : list string) : Prop := exists x, st !! c = Some x /\ parent_revisions e st drafts (commit_parents (ob_commit x)) = Some ids.
Record set_for (l : list oid) (sv' : server) : Prop := {
  sf_rest : forall i, (forall c, c ∈ l -> ~ has_revision e st c i) -> sv' !! i = sv !! i;
  sf_done : forall c i ids, c ∈ l -> has_revision e st c i -> wants c ids -> sv' !! i = with_depends (phids sv ids) <$> sv !! i }.
Definition all_readable (l : list oid) : Prop := forall c, c ∈ l -> exists ids, wants c ids.
Definition own_in (l : list oid) : Prop := forall c c' i, c ∈ l -> c' ∈ l -> has_revision e st c i -> has_revision e st c' i -> c = c'.
Lemma some_has (l : list oid) i : (exists c, c ∈ l /\ has_revision e st c i) \/ forall c, c ∈ l -> ~ has_revision e st c i.
Proof.
  destruct (decide (Exists (fun c => get_revision_id e st c = Some (Some i)) l)) as [D|D].
  - left. apply Exists_exists in D. destruct D as (c & Hc & H). exists c. split; [exact Hc|now apply has_revision_get].
  - right. intros c Hc H. apply D, Exists_exists. exists c. split; [exact Hc|now apply has_revision_get].
Qed.
Lemma sf_phid l sv' : all_readable l -> set_for l sv' -> forall i, rv_phid <$> sv' !! i = rv_phid <$> sv !! i.
Proof.
  intros Rd [S1 S2] i. destruct (some_has l i) as [(c & Hc & H)|N]; [|now rewrite (S1 i N)]. destruct (Rd c Hc) as [ids W]. rewrite (S2 c i ids Hc H W). destruct (sv !! i); reflexivity.
Qed.
Lemma sf_nil : set_for [] sv.
Proof. constructor; [reflexivity|]. intros c i ids H. now apply elem_of_nil in H. Qed.
Lemma sf_skip l c sv' : (forall i, ~ has_revision e st c i) -> set_for l sv' -> set_for (l ++ [c]) sv'.
Proof.
  intros N [S1 S2]. constructor.
  - intros i H. apply S1. intros a Ha. apply H. apply elem_of_app. now left.
  - intros a i ids Ha H W. apply elem_of_app in Ha. destruct Ha as [Ha|Ha]; [exact (S2 a i ids Ha H W)|]. apply elem_of_list_singleton in Ha. subst a. destruct (N i H).
Qed.
Lemma sf_snoc l c sv' i ids : all_readable l -> own_in (l ++ [c]) -> c ∉ l -> has_revision e st c i -> wants c ids -> set_for l sv' ->
  set_for (l ++ [c]) (alter (with_depends (phids sv' ids)) i sv').
Proof.
  intros Rd Ow Nc Hi W S. pose proof (sf_phid l sv' Rd S) as Ph. rewrite (phids_same sv sv' ids Ph). destruct S as [S1 S2].
  assert (Ni : forall a, a ∈ l -> ~ has_revision e st a i). { intros a Ha H. apply Nc. rewrite (Ow c a i); [exact Ha|apply elem_of_app; right; left|apply elem_of_app; now left|exact Hi|exact H]. }
  constructor.
  - intros j H. rewrite alter_other by (intros ->; exact (H c ltac:(apply elem_of_app; right; left) Hi)). apply S1. intros a Ha. apply H. apply elem_of_app. now left.
  - intros a j ids' Ha H W'. apply elem_of_app in Ha. destruct Ha as [Ha|Ha].
    + rewrite alter_other by (intros <-; exact (Ni a Ha H)). exact (S2 a j ids' Ha H W').
    + apply elem_of_list_singleton in Ha. subst a. rewrite (has_revision_unique _ _ _ _ _ H Hi). rewrite alter_here, (S1 i Ni).
      destruct W as (x & Hx & E), W' as (x' & Hx' & E'). rewrite Hx in Hx'. injection Hx' as <-. rewrite E in E'. injection E' as <-. reflexivity.
Qed.
Lemma set_dependencies_eq id ids v : set_dependencies e id ids v = match ph_edit e v id (phids v ids) with
  | EditDone => (alter (with_depends (phids v ids)) id v, true) | EditIgnored => (v, true) | EditFailed => (v, false) end.
Proof. reflexivity. Qed.

(** If it goes through and no request was ignored, all are set. *)
Lemma update_each_set l : forall done v v', (forall v i l, ph_edit e v i l <> EditIgnored) -> all_readable (done ++ l) -> own_in (done ++ l) -> NoDup (done ++ l) -> set_for done v ->
  update_each_revision e st drafts l v = (v', true) -> set_for (done ++ l) v'.
Proof.
  induction l as [|c l IH]; intros done v v' Ed Rd Ow Nd S; cbn [update_each_revision].
  - intros [= <-]. now rewrite app_nil_r.
  - destruct (Rd c ltac:(apply elem_of_app; right; left)) as [ids W]. pose proof W as (x & Hx & Ep). rewrite Hx, Ep.
    assert (Eq : done ++ c :: l = (done ++ [c]) ++ l) by (rewrite <- app_assoc; reflexivity).
    assert (In1 : forall a, a ∈ done -> a ∈ done ++ c :: l) by (intros a Ha; apply elem_of_app; now left).
    assert (In2 : forall a, a ∈ done ++ [c] -> a ∈ done ++ c :: l) by (intros a Ha; rewrite Eq; apply elem_of_app; now left).
    destruct (id_in (ph_text e (ob_message x))) as [i|] eqn:Ei.
    + assert (Hi : has_revision e st c i) by (exists x; split; [exact Hx|now apply id_in_spec]).
      rewrite set_dependencies_eq. destruct (ph_edit e v i _) eqn:Ee; [|destruct (Ed _ _ _ Ee)|discriminate].
      intros H. rewrite Eq in Rd, Ow, Nd |- *. apply (IH _ _ _ Ed Rd Ow Nd) in H; [exact H|].
      apply sf_snoc; [intros a Ha; apply Rd; apply elem_of_app; left; apply elem_of_app; now left| | |exact Hi|exact W|exact S].
      * intros a b k Ha Hb. apply Ow; apply elem_of_app; now left.
      * apply NoDup_app in Nd. destruct Nd as [Nd _]. apply NoDup_app in Nd. destruct Nd as (_ & N & _). intros Hc. apply (N c Hc). left.
    + intros H. rewrite Eq in Rd, Ow, Nd |- *. apply (IH _ _ _ Ed Rd Ow Nd) in H; [exact H|]. apply sf_skip; [|exact S]. intros i (y & Hy & L). rewrite Hx in Hy. injection Hy as <-.
      apply id_in_spec in L. congruence.
Qed.
(** If requests are met as long as there is no cycle, and there is none, it goes through. *)
Lemma update_each_through l : forall done v, (forall v i ids, told_apart v -> no_cycle (alter (with_depends ids) i v) -> ph_edit e v i ids = EditDone) ->
  (forall l1 l2 v, done ++ l = l1 ++ l2 -> set_for l1 v -> no_cycle v /\ told_apart v) ->
  all_readable (done ++ l) -> own_in (done ++ l) -> NoDup (done ++ l) -> set_for done v ->
  exists v', update_each_revision e st drafts l v = (v', true) /\ set_for (done ++ l) v'.
Proof.
  induction l as [|c l IH]; intros done v Ed Ac Rd Ow Nd S; cbn [update_each_revision].
  - exists v. split; [reflexivity|]. now rewrite app_nil_r.
  - destruct (Rd c ltac:(apply elem_of_app; right; left)) as [ids W]. pose proof W as (x & Hx & Ep). rewrite Hx, Ep.
    assert (Eq : done ++ c :: l = (done ++ [c]) ++ l) by (rewrite <- app_assoc; reflexivity).
    destruct (id_in (ph_text e (ob_message x))) as [i|] eqn:Ei.
    + assert (Hi : has_revision e st c i) by (exists x; split; [exact Hx|now apply id_in_spec]).
      destruct (Ac done (c :: l) v eq_refl S) as [_ Tv].
      rewrite Eq in Rd, Ow, Nd, Ac |- *.
      assert (S' : set_for (done ++ [c]) (alter (with_depends (phids v ids)) i v)).
      { apply sf_snoc; [intros a Ha; apply Rd; apply elem_of_app; left; apply elem_of_app; now left| | |exact Hi|exact W|exact S].
        - intros a b k Ha Hb. apply Ow; apply elem_of_app; now left.
        - apply NoDup_app in Nd. destruct Nd as [Nd _]. apply NoDup_app in Nd. destruct Nd as (_ & N & _). intros Hc. apply (N c Hc). left. }
      destruct (Ac (done ++ [c]) l _ eq_refl S') as [Nc _].
      rewrite set_dependencies_eq, (Ed v i _ Tv Nc). exact (IH _ _ Ed Ac Rd Ow Nd S').
    + rewrite Eq in Rd, Ow, Nd, Ac |- *. apply (IH _ _ Ed Ac Rd Ow Nd). apply sf_skip; [|exact S]. intros i (y & Hy & L). rewrite Hx in Hy. injection Hy as <-.
      apply id_in_spec in L. congruence.
Qed.

Hypothesis Ta : told_apart sv.
Lemma sf_apart l sv' : all_readable l -> set_for l sv' -> told_apart sv'.
Proof.
  intros Rd S i j r q Hr Hq E. pose proof (sf_phid l sv' Rd S i) as P1. pose proof (sf_phid l sv' Rd S j) as P2. rewrite Hr in P1. rewrite Hq in P2. cbn in P1, P2.
  destruct (sv !! i) as [r0|] eqn:Er; [|discriminate]. destruct (sv !! j) as [q0|] eqn:Eq; [|discriminate]. cbn in P1, P2. injection P1 as P1. injection P2 as P2. apply (Ta i j r0 q0 Er Eq). congruence.
Qed.
(** What those depend on then. *)
Lemma sf_depends (l : list oid) sv' c i ids j : all_readable l -> set_for l sv' -> c ∈ l -> has_revision e st c i -> wants c ids -> is_Some (sv !! i) ->
  depends_on sv' i j <-> j ∈ ids /\ is_Some (sv !! j).
Proof.
  intros Rd S Hc Hi W [r Hr]. pose proof (sf_done _ _ S c i ids Hc Hi W) as E. rewrite Hr in E. cbn in E. pose proof (sf_phid l sv' Rd S j) as P. unfold depends_on. split.
  - intros (r' & q & Hr' & Hq & In). rewrite E in Hr'. injection Hr' as <-. cbn in In. rewrite Hq in P. cbn in P. destruct (sv !! j) as [q0|] eqn:Eq; [|discriminate]. cbn in P. injection P as P.
    rewrite P in In. apply (phids_elem sv ids j q0 Ta Eq) in In. split; [exact In|eauto].
  - intros [In [q0 Hq0]]. rewrite Hq0 in P. destruct (sv' !! j) as [q|] eqn:Eq; [|discriminate]. cbn in P. injection P as P. exists (with_depends (phids sv ids) r), q. split_and!; [exact E|reflexivity|].
    cbn. rewrite P. now apply (phids_elem sv ids j q0 Ta Hq0).
Qed.
Lemma sf_other (l : list oid) sv' i j : all_readable l -> set_for l sv' -> (forall c, c ∈ l -> ~ has_revision e st c i) -> depends_on sv' i j <-> depends_on sv i j.
Proof.
  intros Rd S N. pose proof (sf_rest _ _ S i N) as E. pose proof (sf_phid l sv' Rd S j) as P. unfold depends_on. split; intros (r & q & Hr & Hq & In).
  - rewrite Hq in P. destruct (sv !! j) as [q0|] eqn:Eq; [|discriminate]. cbn in P. injection P as P. exists r, q0. split_and!; [congruence|reflexivity|now rewrite <- P].
  - rewrite Hq in P. destruct (sv' !! j) as [q0|] eqn:Eq; [|discriminate]. cbn in P. injection P as P. exists r, q0. split_and!; [congruence|reflexivity|now rewrite P].
Qed.
Lemma sf_no_cycle (l : list oid) sv' : all_readable l -> own_in l -> NoDup l -> set_for l sv' -> no_cycle sv ->
  (forall l1 a l2 b l3, l = l1 ++ a :: l2 ++ b :: l3 -> ~ store_parent st b a) -> (forall c, c ∈ l -> ~ store_parent st c c) ->
  (forall c ids j, c ∈ l -> wants c ids -> j ∈ ids -> is_Some (sv !! j) -> exists p, p ∈ l /\ store_parent st p c /\ has_revision e st p j) -> no_cycle sv'.
Proof.
  intros Rd Ow Nd S Ac So Sf Cl i T.
  assert (Step : forall a b n c, l !! n = Some c -> has_revision e st c a -> depends_on sv' a b -> exists m p, m < n /\ l !! m = Some p /\ has_revision e st p b).
  { intros a b n c Hn Ha D. assert (Hc : c ∈ l) by (eapply elem_of_list_lookup_2; eauto). destruct (Rd c Hc) as [ids W].
    assert (Sa : is_Some (sv !! a)). { destruct D as (r & _ & Hr & _). pose proof (sf_phid l sv' Rd S a) as P. rewrite Hr in P. destruct (sv !! a); [eauto|discriminate]. }
    apply (sf_depends l sv' c a ids b Rd S Hc Ha W Sa) in D. destruct D as [Hb Sb]. destruct (Cl c ids b Hc W Hb Sb) as (p & Hp & P & Hpb).
    apply elem_of_list_lookup in Hp. destruct Hp as [m Hm]. exists m, p. split_and!; [|exact Hm|exact Hpb].
    destruct (Nat.lt_trichotomy m n) as [L|[->|L]]; [exact L| |].
    - rewrite Hn in Hm. injection Hm as <-. destruct (Sf c Hc P).
    - exfalso. apply elem_of_list_split_length in Hn. destruct Hn as (l1 & l2 & El & En). rewrite El in Hm. rewrite lookup_app_r in Hm by lia.
      destruct (m - length l1) as [|k] eqn:Ek; [lia|]. cbn in Hm. apply elem_of_list_split_length in Hm. destruct Hm as (l3 & l4 & El2 & _). subst l2. exact (So l1 c l3 p l4 El P). }
  assert (Down : forall a b, tc (depends_on sv') a b -> forall n c, l !! n = Some c -> has_revision e st c a -> exists m p, m < n /\ l !! m = Some p /\ has_revision e st p b).
  { intros a b H. induction H as [a b D|a b z D H IH]; intros n c Hn Ha; [exact (Step a b n c Hn Ha D)|].
    destruct (Step a b n c Hn Ha D) as (m & p & L & Hm & Hp). destruct (IH m p Hm Hp) as (k & q & L' & Hk & Hq). exists k, q. split_and!; [lia|exact Hk|exact Hq]. }
  assert (Out : forall a b, tc (depends_on sv') a b -> (forall c, c ∈ l -> ~ has_revision e st c a) -> tc (depends_on sv) a b \/ exists c, c ∈ l /\ has_revision e st c b).
  { intros a b H. induction H as [a b D|a b z D H IH]; intros N.
    - left. constructor. now apply (sf_other l sv' a b Rd S N).
    - apply (sf_other l sv' a b Rd S N) in D. destruct (some_has l b) as [(c & Hc & Hb)|N'].
      + right. apply elem_of_list_lookup in Hc. destruct Hc as [n Hn]. destruct (Down b z H n c Hn Hb) as (m & p & _ & Hm & Hp). exists p. split; [eapply elem_of_list_lookup_2; eauto|exact Hp].
      + destruct (IH N') as [T'|X]; [left; eapply tc_l; eauto|right; exact X]. }
  destruct (some_has l i) as [(c & Hc & Hi)|N].
  - apply elem_of_list_lookup in Hc. destruct Hc as [n Hn]. destruct (Down i i T n c Hn Hi) as (m & p & L & Hm & Hp).
    assert (p = c) as -> by (apply (Ow p c i); auto; eapply elem_of_list_lookup_2; eauto). pose proof (NoDup_lookup _ _ _ _ Nd Hn Hm). lia.
  - destruct (Out i i T N) as [T'|(c & Hc & Hi)]; [exact (Ac i T')|exact (N c Hc Hi)].
Qed.
End depends.
