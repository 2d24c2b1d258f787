(** Proofs about ReportModel. *)
From stdpp Require Import pretty sorting.
From Coq Require Import Ascii.
From Verif Require Import Base TextModel EventLogModel EventLogSpec EventLogProofs EventLogNavProofs EventLogRefProofs EvolveModel EvolveSpec EvolveProofs NavModel
  StrModel StrProofs HookModel ExecModel ExecAfterProofs HideUndoProofs PhabModel PhabSpec PhabProofs ReportModel ReportSpec.
Local Open Scope string_scope.
Local Open Scope list_scope.

(** ** Names *)
Lemma has_slash_spec n : has_slash n = true <-> exists a b, n = a +:+ "/" +:+ b.
Proof.
  unfold has_slash. induction n as [|c n IH]; cbn [list_ascii_of_string existsb].
  - split; [discriminate|]. intros ([|x a] & b & H); discriminate H.
  - rewrite orb_true_iff, IH. split.
    + intros [H|(a & b & ->)].
      * apply Ascii.eqb_eq in H. subst c. by exists "", n.
      * by exists (String c a), b.
    + intros ([|x a] & b & H).
      * rewrite sapp_nil in H. injection H as -> _. left. reflexivity.
      * rewrite sapp_cons in H. injection H as -> ->. right. by exists a, b.
Qed.
Definition is_private (main n : refname) : bool := negb (bool_decide (n ∈ ({[main]} : gset refname)) || negb (has_slash n)).
Lemma is_private_spec main n : is_private main n = true <-> private main n.
Proof.
  unfold is_private, private. rewrite negb_orb, andb_true_iff, negb_involutive, has_slash_spec, negb_true_iff, bool_decide_eq_false.
  rewrite elem_of_singleton. tauto.
Qed.
Lemma is_private_false main n : is_private main n = false <-> ~ private main n.
Proof. rewrite <- is_private_spec. destruct (is_private main n); split; congruence. Qed.

Lemma under_spec p n : starts_with p n = true <-> under p n.
Proof. apply starts_with_spec. Qed.
Lemma under_false p n : starts_with p n = false <-> ~ under p n.
Proof. rewrite <- under_spec. destruct (starts_with p n); split; congruence. Qed.
Lemma not_both n : under "refs/heads/" n -> ~ under "refs/remotes/" n.
Proof. intros [a ->] [b H]. discriminate H. Qed.
Lemma ref_prefix_spec n p : ref_prefix n = p <-> prefix_of n p.
Proof.
  unfold ref_prefix, heads_prefix, remotes_prefix. split.
  - destruct (starts_with "refs/heads/" n) eqn:E.
    { intros <-. apply under_spec in E. destruct E as [r ->]. constructor. }
    destruct (starts_with "refs/remotes/" n) eqn:E2; intros <-.
    { apply under_spec in E2. destruct E2 as [r ->]. constructor. }
    apply under_false in E, E2. by constructor.
  - intros [r|r|m A B].
    + rewrite (proj2 (under_spec _ _)); [reflexivity|by exists r].
    + rewrite (proj2 (under_false _ _)); [|intros H; apply (not_both _ H); by exists r].
      rewrite (proj2 (under_spec _ _)); [reflexivity|by exists r].
    + apply under_false in A, B. by rewrite A, B.
Qed.

Lemma sapp_inj (p a b : string) : p +:+ a = p +:+ b -> a = b.
Proof. induction p as [|c p IH]; [done|]. rewrite !sapp_cons. intros [= H]. auto. Qed.
Lemma stand_in_number n n' k k' m : stand_in n k m -> stand_in n' k' m -> k = k'.
Proof.
  intros (p & P & ->) (p' & P' & E).
  assert (A : (p = "refs/heads/" \/ p = "refs/remotes/" \/ p = "")) by (destruct P; auto).
  assert (A' : (p' = "refs/heads/" \/ p' = "refs/remotes/" \/ p' = "")) by (destruct P'; auto).
  destruct A as [-> |[-> | ->]], A' as [-> |[-> | ->]]; try discriminate E;
    repeat apply sapp_inj in E; by apply (inj pretty) in E.
Qed.

(** ** The table *)
Record table_ok (main : refname) (t : redactions) : Prop := {
  to_in : forall n m : string, t !! n = Some m -> private main n /\ exists k, (k < N.of_nat (size t))%N /\ stand_in n k m;
  to_inj : forall n n' m : string, t !! n = Some m -> t !! n' = Some m -> n = n' }.
Definition calls (main : refname) (t : redactions) (n : string) : string := if is_private main n then default n (t !! n) else n.
Definition seen (main : refname) (t : redactions) (n : string) : Prop := private main n -> is_Some (t !! n).

Lemma table_empty main : table_ok main ∅.
Proof. split; intros *; rewrite lookup_empty; discriminate. Qed.
Lemma redact_ref_enabled main t (n : string) : redact_ref (Enabled {[main]}) t n =
  if is_private main n then
    match t !! n with
    | Some m => (m, t)
    | None => let m := ref_prefix n +:+ "redacted-ref-" +:+ pretty (N.of_nat (size t)) in (m, <[n := m]> t)
    end
  else (n, t).
Proof. unfold redact_ref, is_private. by destruct (_ || _)%bool. Qed.
Lemma calls_seen main t T (n : string) : t ⊆ T -> seen main t n -> calls main T n = calls main t n /\ seen main T n.
Proof.
  intros S H. unfold calls, seen. destruct (is_private main n) eqn:P.
  - apply is_private_spec in P. destruct (H P) as [m M]. rewrite M. pose proof (lookup_weaken _ _ _ _ M S) as M'.
    rewrite M'. split; [reflexivity|]. intros _. by exists m.
  - apply is_private_false in P. split; [reflexivity|]. done.
Qed.
Lemma redact_ref_spec main t (n m : string) t' : redact_ref (Enabled {[main]}) t n = (m, t') -> table_ok main t ->
  table_ok main t' /\ t ⊆ t' /\ m = calls main t' n /\ seen main t' n.
Proof.
  rewrite redact_ref_enabled. unfold calls, seen. destruct (is_private main n) eqn:P.
  - pose proof (proj1 (is_private_spec main n) P) as Q. destruct (t !! n) as [m0|] eqn:L; cbv zeta; intros [= <- <-] O.
    + split; [exact O|]. split; [reflexivity|]. rewrite L. split; [reflexivity|]. by exists m0.
    + set (m1 := ref_prefix n +:+ "redacted-ref-" +:+ pretty (N.of_nat (size t))).
      assert (S1 : stand_in n (N.of_nat (size t)) m1) by (exists (ref_prefix n); split; [by apply ref_prefix_spec|reflexivity]).
      split.
      { split.
        - intros x y H. rewrite map_size_insert_None by exact L. destruct (decide (x = n)) as [->|Hx].
          + rewrite lookup_insert in H. injection H as <-. split; [exact Q|]. exists (N.of_nat (size t)). split; [lia|exact S1].
          + rewrite lookup_insert_ne in H by congruence. destruct (to_in _ _ O x y H) as (A & k & K & B).
            split; [exact A|]. exists k. split; [lia|exact B].
        - intros x x' y H H'. destruct (decide (x = n)) as [->|Hx], (decide (x' = n)) as [->|Hx']; [reflexivity| | |].
          + rewrite lookup_insert in H. injection H as <-. rewrite lookup_insert_ne in H' by congruence.
            destruct (to_in _ _ O x' m1 H') as (_ & k & K & B). pose proof (stand_in_number _ _ _ _ _ B S1). lia.
          + rewrite lookup_insert in H'. injection H' as <-. rewrite lookup_insert_ne in H by congruence.
            destruct (to_in _ _ O x m1 H) as (_ & k & K & B). pose proof (stand_in_number _ _ _ _ _ B S1). lia.
          + rewrite lookup_insert_ne in H by congruence. rewrite lookup_insert_ne in H' by congruence.
            exact (to_inj _ _ O x x' y H H'). }
      split; [by apply insert_subseteq|]. rewrite lookup_insert. split; [reflexivity|]. by exists m1.
  - apply is_private_false in P. intros [= <- <-] O. split; [exact O|]. split; [reflexivity|]. split; [reflexivity|]. done.
Qed.

Lemma redact_refs_spec main l : forall t ms t', redact_refs (Enabled {[main]}) t l = (ms, t') -> table_ok main t ->
  table_ok main t' /\ t ⊆ t' /\ ms = List.map (calls main t') l /\ forall n, n ∈ l -> seen main t' n.
Proof.
  induction l as [|n l IH]; intros t ms t'; cbn [redact_refs].
  - intros [= <- <-] O. split; [exact O|]. split; [reflexivity|]. split; [reflexivity|]. intros n H. by apply elem_of_nil in H.
  - destruct (redact_ref _ t n) as [m t1] eqn:E. destruct (redact_refs _ t1 l) as [ms1 t2] eqn:E1. intros [= <- <-] O.
    destruct (redact_ref_spec _ _ _ _ _ E O) as (O1 & S1 & -> & N1).
    destruct (IH _ _ _ E1 O1) as (O2 & S2 & -> & N2). destruct (calls_seen _ _ _ _ S2 N1) as [C D].
    split; [exact O2|]. split; [by transitivity t1|]. split; [cbn [List.map]; by rewrite C|].
    intros x [->|H]%elem_of_cons; auto.
Qed.
Lemma redact_event_spec main e t e' t' : redact_event (Enabled {[main]}) t e = (e', t') -> table_ok main t ->
  table_ok main t' /\ t ⊆ t' /\ e' = rename_event (calls main t') e /\ forall n, names_ref e n -> seen main t' n.
Proof.
  destruct e as [| ts tx n old new msg| | | |ts tx h o [n|]]; cbn [redact_event].
  1, 3, 4, 5, 7: intros [= <- <-] O; (split; [exact O|]; split; [reflexivity|]; split; [reflexivity|]); intros x H; cbn in H; by try discriminate H.
  - destruct (redact_ref _ t n) as [m t1] eqn:E. intros [= <- <-] O. destruct (redact_ref_spec _ _ _ _ _ E O) as (O1 & S1 & -> & N1).
    split; [exact O1|]. split; [exact S1|]. split; [reflexivity|]. cbn. by intros x <-.
  - destruct (redact_ref _ t n) as [m t1] eqn:E. intros [= <- <-] O. destruct (redact_ref_spec _ _ _ _ _ E O) as (O1 & S1 & -> & N1).
    split; [exact O1|]. split; [exact S1|]. split; [reflexivity|]. cbn. by intros x [= <-].
Qed.
Lemma rename_event_ext f g e : (forall n, names_ref e n -> f n = g n) -> rename_event f e = rename_event g e.
Proof. destruct e as [| ts tx n old new msg| | | |ts tx h o [n|]]; cbn; intros H; try reflexivity; by rewrite (H n eq_refl). Qed.
Lemma redact_events_spec main l : forall t es t', redact_events (Enabled {[main]}) t l = (es, t') -> table_ok main t ->
  table_ok main t' /\ t ⊆ t' /\ es = List.map (rename_event (calls main t')) l /\ forall e n, e ∈ l -> names_ref e n -> seen main t' n.
Proof.
  induction l as [|e l IH]; intros t es t'; cbn [redact_events].
  - intros [= <- <-] O. split; [exact O|]. split; [reflexivity|]. split; [reflexivity|]. intros x n H. by apply elem_of_nil in H.
  - destruct (redact_event _ t e) as [e1 t1] eqn:E. destruct (redact_events _ t1 l) as [es1 t2] eqn:E1. intros [= <- <-] O.
    destruct (redact_event_spec _ _ _ _ _ E O) as (O1 & S1 & -> & N1).
    destruct (IH _ _ _ E1 O1) as (O2 & S2 & -> & N2).
    split; [exact O2|]. split; [by transitivity t1|]. split.
    + cbn [List.map]. f_equal. apply rename_event_ext. intros n H. symmetry. by apply (calls_seen _ _ _ _ S2), N1.
    + intros x n [->|H]%elem_of_cons Hn; [|by apply (N2 x)]. by apply (calls_seen _ _ _ _ S2), N1.
Qed.

(** ** Descriptions *)
Lemma marked_text e n : marked e n (if decide (ne_head e = Some n) then ne_arrow e +:+ " " else "").
Proof. destruct (decide _); by constructor. Qed.
Lemma suffix_other n : ~ under "refs/heads/" n -> ~ under "refs/remotes/" n -> render_suffix n = n.
Proof.
  intros A B. unfold render_suffix, heads_prefix, remotes_prefix.
  destruct (strip_prefix "refs/heads/" n) as [r|] eqn:E; [apply strip_prefix_spec in E; destruct A; by exists r|].
  destruct (strip_prefix "refs/remotes/" n) as [r|] eqn:E2; [apply strip_prefix_spec in E2; destruct B; by exists r|]. reflexivity.
Qed.
Lemma suffix_local r : render_suffix ("refs/heads/" +:+ r) = r.
Proof. unfold render_suffix, heads_prefix. by rewrite (proj2 (strip_prefix_spec "refs/heads/" _ r) eq_refl). Qed.
Lemma suffix_remote r : render_suffix ("refs/remotes/" +:+ r) = r.
Proof.
  unfold render_suffix, heads_prefix, remotes_prefix. destruct (strip_prefix "refs/heads/" _) as [x|] eqn:E; [apply strip_prefix_spec in E; discriminate E|].
  by rewrite (proj2 (strip_prefix_spec "refs/remotes/" _ r) eq_refl).
Qed.
Lemma branch_text_said e n : said e n (branch_text e n).
Proof.
  unfold branch_text, heads_prefix, remotes_prefix. destruct (starts_with "refs/heads/" n) eqn:E.
  { apply under_spec in E. destruct E as [r ->]. rewrite suffix_local. constructor. apply marked_text. }
  destruct (starts_with "refs/remotes/" n) eqn:E2.
  { apply under_spec in E2. destruct E2 as [r ->]. rewrite suffix_remote. constructor. apply marked_text. }
  apply under_false in E, E2. rewrite suffix_other by assumption. constructor; [assumption..|]. apply marked_text.
Qed.

Definition names_text (e : node_env) (ns : list refname) : option string :=
  match ns with [] => None | _ => Some ("(" +:+ join ", " (sorted_names (List.map (branch_text e) (remove_dups ns))) +:+ ")") end.
Lemma names_text_said e ns : ne_names e = true -> says_names e ns (names_text e ns).
Proof.
  intros E. unfold says_names. destruct ns as [|n ns]; [left; auto|]. right. split; [exact E|]. split; [discriminate|].
  set (l := n :: ns). exists (remove_dups l), (sorted_names (List.map (branch_text e) (remove_dups l))).
  split; [apply NoDup_remove_dups|]. split; [apply elem_of_remove_dups|]. split.
  - exists (List.map (branch_text e) (remove_dups l)). split; [|symmetry; apply sorted_perm].
    induction (remove_dups l) as [|x xs IH]; cbn [List.map]; constructor; [apply branch_text_said|exact IH].
  - split; [apply sorted_sorted|]. reflexivity.
Qed.
Lemma describe_branches_enabled e main t o s t' : describe_branches e (Enabled {[main]}) t o = (s, t') -> table_ok main t ->
  table_ok main t' /\ t ⊆ t' /\ says_names e (List.map (calls main t') (ne_branches e o)) s /\
  (ne_names e = true -> forall n, n ∈ ne_branches e o -> seen main t' n).
Proof.
  unfold describe_branches. destruct (ne_names e) eqn:E.
  - destruct (redact_refs _ t _) as [ns t1] eqn:R. intros H O.
    assert (H' : s = names_text e ns /\ t1 = t') by (destruct ns; by injection H as <- <-). destruct H' as [-> <-].
    destruct (redact_refs_spec _ _ _ _ _ R O) as (O1 & S1 & -> & N1).
    split; [exact O1|]. split; [exact S1|]. split; [by apply names_text_said|]. auto.
  - intros [= <- <-] O. split; [exact O|]. split; [reflexivity|]. split; [left; auto|]. discriminate.
Qed.
Lemma redact_refs_disabled l : forall t, redact_refs Disabled t l = (l, t).
Proof. induction l as [|n l IH]; intros t; cbn [redact_refs redact_ref]; [reflexivity|]. by rewrite IH. Qed.
Lemma describe_branches_disabled e t o : exists s, describe_branches e Disabled t o = (s, t) /\ says_names e (ne_branches e o) s.
Proof.
  unfold describe_branches. rewrite redact_refs_disabled. destruct (ne_names e) eqn:E.
  - exists (names_text e (ne_branches e o)). split; [by destruct (ne_branches e o)|by apply names_text_said].
  - exists None. split; [reflexivity|]. left. auto.
Qed.

Lemma ascii_space_spec c : ascii_space c = true <-> space c.
Proof.
  unfold ascii_space, space. cbn [existsb]. rewrite !orb_true_iff, !N.eqb_eq. intuition (auto; discriminate).
Qed.
Lemma redact_summary_masked p s : masked s (redact_summary (Enabled p) s).
Proof.
  cbn [redact_summary]. induction s as [|c s IH]; constructor; [|exact IH].
  destruct (ascii_space c) eqn:E; [left; split; [by apply ascii_space_spec|reflexivity]|right].
  split; [|reflexivity]. intros H. apply ascii_space_spec in H. congruence.
Qed.

Lemma substring_prefix (s : string) : forall n, (n <= String.length s)%nat ->
  exists rest, s = String.substring 0 n s +:+ rest /\ String.length (String.substring 0 n s) = n.
Proof.
  induction s as [|c s IH]; intros n H.
  - exists "". destruct n; [split; reflexivity|cbn in H; lia].
  - destruct n as [|n]; [exists (String c s); split; reflexivity|]. cbn in H. destruct (IH n) as (r & E & L); [lia|].
    exists r. cbn [String.substring]. split; [|by cbn [String.length]; rewrite L]. rewrite sapp_cons. f_equal. exact E.
Qed.
Lemma string_of_list_length l : String.length (string_of_list l) = length l.
Proof. unfold string_of_list. induction l as [|c l IH]; [reflexivity|]. cbn. by rewrite IH. Qed.
Lemma hex_digits_length w : forall n, length (hex_digits w n) = w.
Proof. induction w as [|w IH]; intros n; cbn [hex_digits]; [reflexivity|]. rewrite app_length, IH. cbn. lia. Qed.
Lemma moid_length m : String.length (moid_to_string m) = 40%nat.
Proof. destruct m; unfold moid_to_string, oid_to_string; rewrite string_of_list_length, map_length, hex_digits_length; reflexivity. Qed.

Lemma obsolete_hidden es o e : last_concerning es o e -> visibility es o Obsolete <-> hides e o /\ ~ shows e o.
Proof.
  intros L. split.
  - intros (e' & L' & H). by rewrite (last_concerning_unique _ _ _ _ L L').
  - intros H. by exists e.
Qed.
Lemma describe_why_spec r c o : replay_inv r -> valid_cursor r c -> exists s, describe_why r c o = Some s /\ said_why (upto (events r) c) o s.
Proof.
  intros Hi Hc. unfold describe_why. set (es := upto (events r) c). destruct (latest_event r c o) as [e|] eqn:E.
  - apply latest_event_spec in E; [|assumption..]. pose proof (obsolete_hidden es o e E) as V.
    destruct e as [ts tx old new|ts tx n old new msg|ts tx x|ts tx x|ts tx x|ts tx h x n].
    + destruct (find_rewrite_target_spec r c o Hi Hc) as (res & -> & H). destruct res as [m|].
      * eexists. split; [reflexivity|]. right. left.
        destruct (substring_prefix (moid_to_string m) 8) as (rest & A & B); [rewrite moid_length; lia|].
        split; [|by exists m, (String.substring 0 8 (moid_to_string m)), rest].
        assert (R : exists new', rewritten es o new') by (destruct H; eauto). destruct R as (new' & ts' & tx' & L & N).
        pose proof (last_concerning_unique _ _ _ _ E L) as X. injection X as -> -> -> ->.
        apply V. split; cbn; [reflexivity|]. by intros ->.
      * eexists. split; [reflexivity|]. right. right. split; [|reflexivity]. rewrite V. cbn. intros [-> N].
        apply (H new). exists ts, tx. split; [exact E|]. exact N.
    + eexists. split; [reflexivity|]. right. right. split; [|reflexivity]. rewrite V. cbn. tauto.
    + eexists. split; [reflexivity|]. right. right. split; [|reflexivity]. rewrite V. cbn. tauto.
    + eexists. split; [reflexivity|]. left. assert (x = o) as ->.
      { destruct E as (_ & _ & _ & C & _). unfold concerns in C. cbn in C. tauto. }
      split; [apply V; cbn; tauto|]. by exists ts, tx.
    + eexists. split; [reflexivity|]. right. right. split; [|reflexivity]. rewrite V. cbn. tauto.
    + eexists. split; [reflexivity|]. right. right. split; [|reflexivity]. rewrite V. cbn. tauto.
  - eexists. split; [reflexivity|]. right. right. split; [|reflexivity]. pose proof (proj1 (latest_event_none r c o Hi Hc) E) as N.
    intros (e & (b & a & Hb & C & _) & _). apply (N e); [|exact C]. fold es. rewrite Hb. apply elem_of_app. right. constructor.
Qed.

Lemma describe_delta_aged d : aged d (describe_delta d).
Proof.
  unfold describe_delta. destruct (Z.ltb_spec d 60); [by constructor|]. cbv zeta.
  destruct (Z.ltb_spec (d / 60) 60).
  { apply aged_minutes; [split; [|assumption]|]; pose proof (Z.div_mod d 60); pose proof (Z.mod_pos_bound d 60); lia. }
  rewrite !Z.div_div by lia. change (60 * 60)%Z with 3600%Z. change (3600 * 24)%Z with 86400%Z. change (86400 * 365)%Z with 31536000%Z.
  pose proof (Z.div_mod d 60). pose proof (Z.mod_pos_bound d 60).
  pose proof (Z.div_mod d 3600). pose proof (Z.mod_pos_bound d 3600).
  pose proof (Z.div_mod d 86400). pose proof (Z.mod_pos_bound d 86400).
  pose proof (Z.div_mod d 31536000). pose proof (Z.mod_pos_bound d 31536000).
  destruct (Z.ltb_spec (d / 3600) 24); [apply aged_hours; lia|].
  destruct (Z.ltb_spec (d / 86400) 365); [apply aged_days; lia|]. apply aged_years; lia.
Qed.
Lemma aged_unique d s s' : aged d s -> aged d s' -> s = s'.
Proof. intros A B. destruct A; inversion B; subst; try lia; do 2 f_equal; lia. Qed.
Lemma time_delta_since now previous : seconds_since now previous (time_delta now previous).
Proof.
  unfold time_delta, seconds_since. set (q := (1000000000)%Z).
  destruct (Z.ltb_spec previous now); [left|right].
  - pose proof (Z.div_mod (now - previous) q). pose proof (Z.mod_pos_bound (now - previous) q). pose proof (Z.div_pos (now - previous) q). lia.
  - pose proof (Z.div_mod (previous - now) q). pose proof (Z.mod_pos_bound (previous - now) q). pose proof (Z.div_pos (previous - now) q). lia.
Qed.
Lemma seconds_unique now previous d d' : seconds_since now previous d -> seconds_since now previous d' -> d = d'.
Proof. unfold seconds_since. lia. Qed.

(** ** One commit *)
Lemma describe_enabled e r c main t x ds t' : replay_inv r -> valid_cursor r c ->
  describe e r c (Enabled {[main]}) t x = Some (ds, t') -> table_ok main t ->
  table_ok main t' /\ t ⊆ t' /\ (forall T, t' ⊆ T -> told_node main (dom T) (calls main T) e r c x ds).
Proof.
  intros Hi Hc. unfold describe. destruct (describe_why_spec r c (node_oid x) Hi Hc) as (w & -> & W).
  destruct (describe_branches _ _ _ _) as [bs t1] eqn:B. intros [= <- <-] O.
  destruct (describe_branches_enabled _ _ _ _ _ _ B O) as (O1 & S1 & SN & N1).
  split; [exact O1|]. split; [exact S1|]. intros T ST. split; [|split; [|split; [|split]]].
  - intros Hn n Hin P. apply elem_of_dom. exact (proj2 (calls_seen _ _ _ _ ST (N1 Hn n Hin)) P).
  - cbn [ds_branches]. destruct (ne_names e) eqn:E.
    + refine (eq_ind_r (fun l => says_names e l bs) SN _).
      apply map_ext_in. intros n Hin. apply elem_of_list_In in Hin. exact (proj1 (calls_seen _ _ _ _ ST (N1 eq_refl n Hin))).
    + left. split; [left; exact E|]. destruct SN as [[_ H]|[H _]]; [exact H|congruence].
  - exact W.
  - reflexivity.
  - cbn [ds_summary]. unfold describe_summary. destruct x; exact (redact_summary_masked {[main]} _).
Qed.
Lemma describe_total e r c k t x : replay_inv r -> valid_cursor r c -> exists p, describe e r c k t x = Some p.
Proof.
  intros Hi Hc. unfold describe. destruct (describe_why_spec r c (node_oid x) Hi Hc) as (w & -> & W). destruct (describe_branches _ _ _ _). eauto.
Qed.
Lemma describe_all_enabled e r c main l : replay_inv r -> valid_cursor r c -> forall t, table_ok main t ->
  exists ds t', describe_all e r c (Enabled {[main]}) t l = Some (ds, t') /\ table_ok main t' /\ t ⊆ t' /\
    (forall T, t' ⊆ T -> Forall2 (told_node main (dom T) (calls main T) e r c) l ds).
Proof.
  intros Hi Hc. induction l as [|x l IH]; intros t O; cbn [describe_all].
  - exists [], t. split; [reflexivity|]. split; [exact O|]. split; [reflexivity|]. constructor.
  - destruct (describe_total e r c (Enabled {[main]}) t x Hi Hc) as [[d t1] E]. rewrite E.
    destruct (describe_enabled _ _ _ _ _ _ _ _ Hi Hc E O) as (O1 & S1 & T1).
    destruct (IH t1 O1) as (ds & t2 & -> & O2 & S2 & T2). exists (d :: ds), t2. split; [reflexivity|]. split; [exact O2|].
    split; [by transitivity t1|]. intros T ST. constructor; [apply T1; by transitivity t2|by apply T2].
Qed.

(** ** The report *)
Lemma default_end r : default_cursor r = Z.of_nat (length (events r)).
Proof. unfold default_cursor, make_cursor. destruct (Z.ltb_spec (Z.of_nat (length (events r))) 0); [lia|]. destruct (_ >? _)%Z; reflexivity. Qed.
Lemma end_valid r : valid_cursor r (Z.of_nat (length (events r))).
Proof. unfold valid_cursor. lia. Qed.
Lemma advance_back r : forall i, exists c, advance_tx r (default_cursor r) (- Z.of_nat i) = Some c /\ valid_cursor r c /\ boundary (events r) c /\ back (events r) i c.
Proof.
  rewrite default_end. pose proof (end_valid r) as V. induction i as [|i (c & A & Vc & Bc & B)].
  - exists (Z.of_nat (length (events r))). change (- Z.of_nat 0)%Z with 0%Z. split; [by apply (advance_tx_stuck_end r 0)|].
    split; [exact V|]. split; [right; left; reflexivity|constructor].
  - destruct (advance_tx_minus r _ (Z.of_nat i) V) as (d & D & E); [lia|]. rewrite A in D. injection D as <-.
    replace (Z.of_nat (S i)) with (Z.of_nat i + 1)%Z by lia. rewrite E.
    destruct (Z.eq_dec c 0) as [->|N].
    + exists 0%Z. split; [apply (advance_tx_stuck_start r 1); lia|]. split; [exact Vc|]. split; [exact Bc|]. by apply back_start.
    + destruct (advance_tx_lands r c (-1) Vc) as (d & D & Vd & Bd). exists d. split; [exact D|]. split; [exact Vd|]. split; [exact Bd|].
      eapply back_one; [exact B|]. apply (advance_tx_minus_one r c d Vc Bc); [unfold valid_cursor in Vc; lia|exact D].
Qed.

Lemma describe_cursor_spec e d r nodes main t i c : replay_inv r -> valid_cursor r c -> back (events r) i c -> table_ok main t ->
  exists en t', describe_cursor e d r nodes (Enabled {[main]}) t c = Some (en, t') /\ table_ok main t' /\ t ⊆ t' /\
    forall T, t' ⊆ T -> told main (dom T) (calls main T) e d r nodes i en.
Proof.
  intros Hi Hc B O. unfold describe_cursor. destruct (Z.eq_dec c 0) as [->|N].
  - rewrite tx_events_start. destruct (describe_all_enabled e r 0 main (nodes 0%Z) Hi Hc t O) as (ds & t' & -> & O' & S' & T').
    exists (mk_entry None ds), t'. split; [reflexivity|]. split; [exact O'|]. split; [exact S'|]. intros T ST. exists 0%Z.
    split; [exact B|]. split; [reflexivity|]. by apply T'.
  - destruct (tx_events_spec r c Hc) as (start & seg & -> & L); [unfold valid_cursor in Hc; lia|].
    pose proof L as (pre & post & tx & _ & _ & _ & Hne & Htx & _). destruct seg as [|e0 seg]; [done|].
    destruct (redact_events _ t (e0 :: seg)) as [es t1] eqn:R. destruct (redact_events_spec _ _ _ _ _ R O) as (O1 & S1 & -> & N1).
    destruct (describe_all_enabled e r c main (nodes c) Hi Hc t1 O1) as (ds & t' & -> & O' & S' & T').
    eexists _, t'. split; [reflexivity|]. split; [exact O'|]. split; [by transitivity t1|]. intros T ST. exists c.
    split; [exact B|]. split; [|by apply T']. cbn [en_events]. exists start, (e0 :: seg). split; [exact L|]. split; [reflexivity|].
    assert (S2 : t1 ⊆ T) by (by transitivity t').
    split; [intros ev H; rewrite (Htx ev H); symmetry; apply Htx; constructor|]. split; [reflexivity|]. split.
    + intros ev n H Hn P. apply elem_of_dom. exact (proj2 (calls_seen _ _ _ _ S2 (N1 ev n H Hn)) P).
    + apply map_ext_in. intros ev H. apply elem_of_list_In in H. apply rename_event_ext. intros n Hn. symmetry.
      exact (proj1 (calls_seen _ _ _ _ S2 (N1 ev n H Hn))).
Qed.
Lemma describe_cursors_spec e d r nodes main l : replay_inv r -> forall t, table_ok main t ->
  exists ens T, describe_cursors e d r nodes (Enabled {[main]}) t (List.map Z.of_nat l) = Some ens /\ table_ok main T /\ t ⊆ T /\
    Forall2 (told main (dom T) (calls main T) e d r nodes) l ens.
Proof.
  intros Hi. induction l as [|i l IH]; intros t O; cbn [List.map describe_cursors].
  - exists [], t. split; [reflexivity|]. split; [exact O|]. split; [reflexivity|constructor].
  - destruct (advance_back r i) as (c & -> & Vc & _ & B).
    destruct (describe_cursor_spec e d r nodes main t i c Hi Vc B O) as (en & t1 & -> & O1 & S1 & T1).
    destruct (IH t1 O1) as (ens & T & -> & O2 & S2 & F). exists (en :: ens), T. split; [reflexivity|]. split; [exact O2|].
    split; [by transitivity t1|]. constructor; [by apply T1|exact F].
Qed.
Lemma calls_one_naming main T : table_ok main T -> one_naming main (dom T) (calls main T).
Proof.
  intros O. split.
  - intros n P. unfold calls. by rewrite (proj2 (is_private_false main n) P).
  - intros n [m M]%elem_of_dom. destruct (to_in _ _ O n m M) as (P & k & K & S). split; [exact P|]. exists k. rewrite size_dom.
    split; [exact K|]. unfold calls. rewrite (proj2 (is_private_spec main n) P). replace (@lookup string string (gmap string string) _ n T) with (Some m) by done. exact S.
  - intros n n' [m M]%elem_of_dom [m' M']%elem_of_dom. destruct (to_in _ _ O n m M) as (P & _). destruct (to_in _ _ O n' m' M') as (P' & _).
    unfold calls. rewrite (proj2 (is_private_spec main n) P), (proj2 (is_private_spec main n') P'). replace (@lookup string string (gmap string string) _ n T) with (Some m) by done. replace (@lookup string string (gmap string string) _ n' T) with (Some m') by done. cbn. intros <-.
    exact (to_inj _ _ O n n' m M M').
Qed.
