(** Lemmas about the revset language. *)
From Verif Require Import Base RevsetSyntaxModel RevsetSyntaxSpec.
Local Open Scope string_scope.
Local Open Scope list_scope.

Fixpoint expr_ind' (P : expr -> Prop) (HN : forall s, P (Name s))
  (HC : forall f args, Forall P args -> P (Call f args)) (e : expr) : P e :=
  match e with
  | Name s => HN s
  | Call f args =>
      HC f args ((fix go (l : list expr) : Forall P l :=
        match l with
        | [] => Forall_nil_2 P
        | a :: l' => Forall_cons_2 P a l' (expr_ind' P HN HC a) (go l')
        end) args)
  end.

Scheme derives_mut := Induction for derives Sort Prop
  with derives_args_mut := Induction for derives_args Sort Prop.
Combined Scheme derives_both from derives_mut, derives_args_mut.

(** ** The parser follows the grammar *)

Lemma parse_sound fuel :
  (forall lvl ts e r, (1 <= lvl <= 5)%nat -> parse_level fuel lvl ts = Some (e, r) ->
     exists t1, ts = t1 ++ r /\ derives lvl t1 e) /\
  (forall lvl l ts e r, (1 <= lvl <= 4)%nat -> parse_rest fuel lvl l ts = Some (e, r) ->
     forall t0, derives lvl t0 l -> exists t1, ts = t1 ++ r /\ derives lvl (t0 ++ t1) e) /\
  (forall ts es r, parse_args fuel ts = Some (es, r) ->
     exists t1, ts = t1 ++ r /\ derives_args t1 es).
Proof.
  induction fuel as [|fuel (IHl & IHr & IHa)]; [split_and!; intros; discriminate|].
  split_and!.
  - intros lvl ts e r L E. cbn [parse_level] in E.
    assert (D : lvl = 1 \/ lvl = 2 \/ lvl = 3 \/ lvl = 4 \/ lvl = 5) by lia.
    destruct D as [->|[->|[->|[->| ->]]]].
    + destruct (parse_level fuel 2 ts) as [[e1 ts1]|] eqn:E1; [|discriminate].
      destruct (IHl 2 _ _ _ ltac:(lia) E1) as (t1 & -> & D1).
      destruct (IHr 1 _ _ _ _ ltac:(lia) E t1 (d_1 _ _ D1)) as (t2 & -> & D2).
      exists (t1 ++ t2). rewrite app_assoc. auto.
    + destruct (parse_level fuel 3 ts) as [[e1 ts1]|] eqn:E1; [|discriminate].
      destruct (IHl 3 _ _ _ ltac:(lia) E1) as (t1 & -> & D1).
      destruct (IHr 2 _ _ _ _ ltac:(lia) E t1 (d_2 _ _ D1)) as (t2 & -> & D2).
      exists (t1 ++ t2). rewrite app_assoc. auto.
    + destruct ts as [|t ts1]; [discriminate|].
      destruct (range_prefix t) as [k|] eqn:Et.
      * destruct (parse_level fuel 4 ts1) as [[e1 ts2]|] eqn:E1; [|discriminate].
        destruct (IHl 4 _ _ _ ltac:(lia) E1) as (t1 & -> & D1).
        destruct (IHr 3 _ _ _ _ ltac:(lia) E (t :: t1) (d_prefix _ _ _ _ Et D1)) as (t2 & -> & D2).
        exists ((t :: t1) ++ t2). split; [|exact D2]. cbn. now rewrite <- app_assoc.
      * destruct (parse_level fuel 4 (t :: ts1)) as [[e1 ts2]|] eqn:E1; [|discriminate].
        destruct (IHl 4 _ _ _ ltac:(lia) E1) as (t1 & -> & D1).
        destruct (IHr 3 _ _ _ _ ltac:(lia) E t1 (d_3 _ _ D1)) as (t2 & -> & D2).
        exists (t1 ++ t2). rewrite app_assoc. auto.
    + destruct (parse_level fuel 5 ts) as [[e1 ts1]|] eqn:E1; [|discriminate].
      destruct (IHl 5 _ _ _ ltac:(lia) E1) as (t1 & -> & D1).
      destruct (IHr 4 _ _ _ _ ltac:(lia) E t1 (d_4 _ _ D1)) as (t2 & -> & D2).
      exists (t1 ++ t2). rewrite app_assoc. auto.
    + assert (N : forall n ts1, match name_of n with
                  | None => None
                  | Some nm =>
                      match ts1 with
                      | TOpen :: ts2 =>
                          match parse_args fuel ts2 with
                          | Some (args, TClose :: ts') => Some (Call nm args, ts')
                          | _ => None
                          end
                      | _ => Some (Name nm, ts1)
                      end
                  end = Some (e, r) ->
                exists t1, n :: ts1 = t1 ++ r /\ derives 5 t1 e).
      { intros n ts1 E'. destruct (name_of n) as [nm|] eqn:En; [|discriminate].
        assert (Dn : Some (Name nm, ts1) = Some (e, r) -> exists t1, n :: ts1 = t1 ++ r /\ derives 5 t1 e).
        { intros [= <- <-]. exists [n]. split; [reflexivity|]. now constructor. }
        destruct ts1 as [|[] ts2]; try (apply Dn; exact E').
        destruct (parse_args fuel ts2) as [[args [|[] ts3]]|] eqn:Ea; try discriminate.
        injection E' as <- <-. destruct (IHa _ _ _ Ea) as (t1 & -> & D1).
        exists (n :: TOpen :: t1 ++ [TClose]). split; [cbn; now rewrite <- app_assoc|]. now constructor. }
      destruct ts as [|[] ts1]; try discriminate; try (apply N; exact E).
      destruct (parse_level fuel 1 ts1) as [[e1 [|[] ts2]]|] eqn:E1; try discriminate.
      injection E as <- <-. destruct (IHl 1 _ _ _ ltac:(lia) E1) as (t1 & -> & D1).
      exists (TOpen :: t1 ++ [TClose]). split; [cbn; now rewrite <- app_assoc|]. now constructor.
  - intros lvl l ts e r L E t0 D0. cbn [parse_rest] in E.
    assert (Stop : Some (l, ts) = Some (e, r) -> exists t1, ts = t1 ++ r /\ derives lvl (t0 ++ t1) e).
    { intros [= <- <-]. exists []. rewrite app_nil_r. auto. }
    destruct ts as [|t ts1]; [apply Stop; exact E|].
    assert (D : lvl = 1 \/ lvl = 2 \/ lvl = 3 \/ lvl = 4) by lia.
    destruct D as [->|[->|[->| ->]]].
    + destruct (union_op t) as [k|] eqn:Et; [|apply Stop; exact E].
      destruct (parse_level fuel 2 ts1) as [[e1 ts2]|] eqn:E1; [|discriminate].
      destruct (IHl 2 _ _ _ ltac:(lia) E1) as (t1 & -> & D1).
      destruct (IHr 1 _ _ _ _ ltac:(lia) E _ (d_union _ _ _ _ _ _ Et D0 D1)) as (t2 & -> & D2).
      exists (t :: t1 ++ t2). split; [cbn; now rewrite <- app_assoc|]. rewrite <- app_assoc in D2. exact D2.
    + destruct (set_op t) as [k|] eqn:Et; [|apply Stop; exact E].
      destruct (parse_level fuel 3 ts1) as [[e1 ts2]|] eqn:E1; [|discriminate].
      destruct (IHl 3 _ _ _ ltac:(lia) E1) as (t1 & -> & D1).
      destruct (IHr 2 _ _ _ _ ltac:(lia) E _ (d_set _ _ _ _ _ _ Et D0 D1)) as (t2 & -> & D2).
      exists (t :: t1 ++ t2). split; [cbn; now rewrite <- app_assoc|]. rewrite <- app_assoc in D2. exact D2.
    + destruct (range_op t) as [k|] eqn:Et; [|apply Stop; exact E].
      destruct (range_postfix t) as [k1|] eqn:Ep; [|apply Stop; exact E].
      destruct (starts_operand ts1).
      * destruct (parse_level fuel 4 ts1) as [[e1 ts2]|] eqn:E1; [|discriminate].
        destruct (IHl 4 _ _ _ ltac:(lia) E1) as (t1 & -> & D1).
        destruct (IHr 3 _ _ _ _ ltac:(lia) E _ (d_range _ _ _ _ _ _ Et D0 D1)) as (t2 & -> & D2).
        exists (t :: t1 ++ t2). split; [cbn; now rewrite <- app_assoc|]. rewrite <- app_assoc in D2. exact D2.
      * destruct (IHr 3 _ _ _ _ ltac:(lia) E _ (d_postfix _ _ _ _ Ep D0)) as (t2 & -> & D2).
        exists (t :: t2). split; [reflexivity|]. rewrite <- app_assoc in D2. exact D2.
    + destruct (nth_op t) as [f|] eqn:Et; [|apply Stop; exact E].
      assert (One : parse_rest fuel 4 (Call f [l; Name "1"]) ts1 = Some (e, r) ->
                    exists t1, t :: ts1 = t1 ++ r /\ derives 4 (t0 ++ t1) e).
      { intros E'. destruct (IHr 4 _ _ _ _ ltac:(lia) E' _ (d_nth_1 _ _ _ _ Et D0)) as (t2 & -> & D2).
        exists (t :: t2). split; [reflexivity|]. rewrite <- app_assoc in D2. exact D2. }
      destruct ts1 as [|n ts2]; [apply One; exact E|].
      destruct (name_of n) as [nm|] eqn:En; [|apply One; exact E].
      destruct (IHr 4 _ _ _ _ ltac:(lia) E _ (d_nth _ _ _ _ _ _ Et En D0)) as (t2 & -> & D2).
      exists (t :: n :: t2). split; [reflexivity|]. rewrite <- app_assoc in D2. exact D2.
  - intros ts es r E. cbn [parse_args] in E.
    assert (N : match parse_level fuel 1 ts with
                | Some (e, TComma :: ts1) =>
                    match parse_args fuel ts1 with Some (es, ts') => Some (e :: es, ts') | None => None end
                | Some (e, ts1) => Some ([e], ts1)
                | None => None
                end = Some (es, r) -> exists t1, ts = t1 ++ r /\ derives_args t1 es).
    { intros E'. destruct (parse_level fuel 1 ts) as [[e1 ts1]|] eqn:E1; [|discriminate].
      destruct (IHl 1 _ _ _ ltac:(lia) E1) as (t1 & -> & D1).
      assert (Last : Some ([e1], ts1) = Some (es, r) -> exists t2, t1 ++ ts1 = t2 ++ r /\ derives_args t2 es).
      { intros [= <- <-]. exists t1. split; [reflexivity|]. now constructor. }
      destruct ts1 as [|[] ts2]; try (apply Last; exact E').
      destruct (parse_args fuel ts2) as [[es1 ts3]|] eqn:Ea; [|discriminate].
      injection E' as <- <-. destruct (IHa _ _ _ Ea) as (t2 & -> & D2).
      exists (t1 ++ TComma :: t2). split; [now rewrite <- app_assoc|]. now constructor. }
    destruct ts as [|[] ts1]; try (apply N; exact E).
    injection E as <- <-. exists []. split; [reflexivity|constructor].
Qed.

(** What may follow a phrase of a level. *)
Definition follow_level (t : token) : nat :=
  match t with
  | TPipe | TPlus | TOr => 1
  | TAmp | TAnd | TMinus | TPercent => 2
  | TColon | TColonColon | TDotDot => 3
  | TCaret | TTilde => 4
  | TOpen | TWord _ | TLiteral _ => 9
  | TClose | TComma => 0
  end.
Definition follow (l : nat) (rest : list token) : Prop :=
  match rest with [] => True | t :: _ => follow_level t <= l end%nat.

Lemma follow_mono l l' rest : (l <= l')%nat -> follow l rest -> follow l' rest.
Proof. destruct rest; cbn; lia. Qed.

Lemma rest_stops f lvl e rest : (1 <= lvl <= 4)%nat -> follow (lvl - 1) rest ->
  parse_rest (S f) lvl e rest = Some (e, rest).
Proof.
  intros L F. cbn [parse_rest]. destruct rest as [|t rest]; [reflexivity|]. cbn in F.
  assert (D : lvl = 1 \/ lvl = 2 \/ lvl = 3 \/ lvl = 4) by lia.
  destruct D as [->|[->|[->| ->]]]; destruct t; cbn in *; try reflexivity; lia.
Qed.

Lemma starts_app ts r : ts <> [] -> starts_operand (ts ++ r) = starts_operand ts.
Proof. destruct ts; [done|reflexivity]. Qed.

Lemma derives_nonempty :
  (forall l ts e, derives l ts e -> ts <> []) /\ (forall ts es, derives_args ts es -> True).
Proof.
  apply derives_both; try (intros; assumption); try (intros; exact I);
    try (intros; apply not_eq_sym; apply app_cons_not_nil); try (intros; discriminate).
Qed.

Lemma derives_starts :
  (forall l ts e, derives l ts e -> (4 <= l)%nat -> starts_operand ts = true) /\
  (forall ts es, derives_args ts es -> True).
Proof.
  apply derives_both; try (intros; exact I); try (intros; lia); try (intros; reflexivity).
  - intros t f ts1 l Et D IH L. rewrite starts_app; [auto|]. eapply derives_nonempty; eassumption.
  - intros t f n nm ts1 l Et En D IH L. rewrite starts_app; [auto|]. eapply derives_nonempty; eassumption.
  - intros ts e D IH L. apply IH. lia.
  - intros n nm ts args En. destruct n; try discriminate; reflexivity.
  - intros n nm En. destruct n; try discriminate; reflexivity.
Qed.

Lemma derives_not_close :
  (forall l ts e, derives l ts e -> match ts with TClose :: _ => False | _ => True end) /\
  (forall ts es, derives_args ts es -> True).
Proof.
  assert (A : forall ts r, ts <> [] -> match ts with TClose :: _ => False | _ => True end ->
                match ts ++ r with TClose :: _ => False | _ => True end).
  { intros ts r N H. destruct ts as [|t ts]; [done|]. exact H. }
  destruct derives_nonempty as [NE _].
  apply derives_both; try (intros; exact I); try (intros; assumption);
    try (intros; apply A; [eapply NE; eassumption|assumption]).
  - intros t k ts2 r Et. destruct t; try discriminate; exact (fun _ _ => I).
  - intros n nm ts args En. destruct n; try discriminate; exact (fun _ _ => I).
  - intros n nm En. destruct n; try discriminate; exact I.
Qed.

Lemma starts_name ts rest n ts1 : starts_operand ts = true -> ts ++ rest = n :: ts1 -> range_prefix n = None.
Proof. intros S E. destruct ts as [|t ts]; [discriminate|]. injection E as <- _. destruct t; try discriminate; reflexivity. Qed.

Definition complete_at (l : nat) (ts : list token) (e : expr) : Prop :=
  forall rest f, follow l rest -> (6 * length ts + 6 <= f + l)%nat ->
  if decide (l = 5)%nat then parse_level f l (ts ++ rest) = Some (e, rest)
  else exists f', (f <= f' + length ts)%nat /\ parse_level f l (ts ++ rest) = parse_rest f' l e rest.
Definition complete_args (ts : list token) (es : list expr) : Prop :=
  forall rest f, (6 * length ts + 6 <= f)%nat ->
  parse_args f (ts ++ TClose :: rest) = Some (es, TClose :: rest).

Lemma complete_level l ts e rest f : (1 <= l < 5)%nat -> complete_at l ts e ->
  ts <> [] -> follow (l - 1) rest -> (6 * length ts + 6 <= f + l)%nat ->
  parse_level f l (ts ++ rest) = Some (e, rest).
Proof.
  intros L C Ne F B.
  assert (F' : follow l rest) by (eapply follow_mono; [|exact F]; lia).
  specialize (C rest f F' B). destruct (decide (l = 5)%nat); [lia|].
  destruct C as (f' & Hf & ->).
  destruct ts as [|t ts]; [done|]. cbn [length] in *.
  destruct f' as [|f']; [lia|]. apply rest_stops; [lia|exact F].
Qed.

Lemma parse_complete :
  (forall l ts e, derives l ts e -> complete_at l ts e) /\
  (forall ts es, derives_args ts es -> complete_args ts es).
Proof.
  destruct derives_nonempty as [NE _]. destruct derives_starts as [ST _].
  assert (Pos : forall l ts e, derives l ts e -> (1 <= length ts)%nat).
  { intros l ts e D. apply NE in D. destruct ts; [done|]. cbn. lia. }
  assert (Bin : forall lvl t (k : expr -> expr -> expr) ts1 ts2 l r, (1 <= lvl <= 3)%nat ->
     follow_level t = lvl ->
     (forall f x ts2 y ts3, (lvl = 3%nat -> starts_operand ts2 = true) ->
        parse_level f (S lvl) ts2 = Some (y, ts3) ->
        parse_rest (S f) lvl x (t :: ts2) = parse_rest f lvl (k x y) ts3) ->
     derives lvl ts1 l -> complete_at lvl ts1 l -> derives (S lvl) ts2 r -> complete_at (S lvl) ts2 r ->
     complete_at lvl (ts1 ++ t :: ts2) (k l r)).
  { intros lvl t k ts1 ts2 l r L Ft Step D1 IH1 D2 IH2 rest f F B.
    rewrite app_length in *. cbn [length] in *. destruct (decide (lvl = 5)%nat); [lia|].
    rewrite <- app_assoc. cbn [app].
    assert (F1 : follow lvl (t :: ts2 ++ rest)) by (cbn; lia).
    assert (B1 : (6 * length ts1 + 6 <= f + lvl)%nat) by lia.
    specialize (IH1 _ _ F1 B1). destruct (decide (lvl = 5)%nat); [lia|].
    destruct IH1 as (f1 & H1 & ->). pose proof (Pos _ _ _ D2). pose proof (Pos _ _ _ D1).
    destruct f1 as [|f1]; [lia|]. exists f1. split; [lia|]. apply Step.
    - intros ->. rewrite starts_app by (eapply NE; exact D2). eapply ST; [exact D2|lia].
    - apply complete_level; [lia|exact IH2|eapply NE; exact D2| |lia].
      replace (S lvl - 1)%nat with lvl by lia. exact F. }
  assert (Lift : forall lvl ts e, (1 <= lvl <= 2 \/ lvl = 4)%nat -> derives (S lvl) ts e ->
     complete_at (S lvl) ts e -> complete_at lvl ts e).
  { intros lvl ts e L D IH rest f F B. destruct (decide (lvl = 5)%nat); [lia|].
    pose proof (Pos _ _ _ D). destruct f as [|f]; [lia|]. exists f. split; [lia|].
    assert (E : parse_level f (S lvl) (ts ++ rest) = Some (e, rest)).
    { destruct (decide (lvl = 4)%nat) as [->|N4].
      - assert (F5 : follow 5 rest) by (eapply follow_mono; [|exact F]; lia).
        specialize (IH rest f F5 ltac:(lia)). exact IH.
      - apply complete_level; [lia|exact IH|eapply NE; exact D| |lia].
        replace (S lvl - 1)%nat with lvl by lia. exact F. }
    cbn [parse_level]. destruct L as [L| ->]; [|now rewrite E].
    assert (Dd : lvl = 1 \/ lvl = 2) by lia. destruct Dd as [->| ->]; now rewrite E. }
  apply derives_both.
  - intros t k ts1 ts2 l r Et D1 IH1 D2 IH2. apply Bin; [lia| | |assumption..].
    + destruct t; try discriminate; reflexivity.
    + intros f x tsb y ts3 _ E. cbn [parse_rest]. rewrite Et, E. reflexivity.
  - intros ts e D IH. apply Lift; [lia|assumption..].
  - intros t k ts1 ts2 l r Et D1 IH1 D2 IH2. apply Bin; [lia| | |assumption..].
    + destruct t; try discriminate; reflexivity.
    + intros f x tsb y ts3 _ E. cbn [parse_rest]. rewrite Et, E. reflexivity.
  - intros ts e D IH. apply Lift; [lia|assumption..].
  - intros t k ts1 ts2 l r Et D1 IH1 D2 IH2. apply Bin; [lia| | |assumption..].
    + destruct t; try discriminate; reflexivity.
    + intros f x tsb y ts3 So E. cbn [parse_rest]. rewrite Et, So, E by reflexivity.
      destruct t; try discriminate; reflexivity.
  - intros t k ts1 l Et D1 IH1 rest f F B. rewrite app_length in *. cbn [length] in *.
    destruct (decide (3 = 5)%nat); [lia|]. rewrite <- app_assoc. cbn [app].
    assert (F1 : follow 3 (t :: rest)) by (cbn; destruct t; try discriminate; cbn; lia).
    specialize (IH1 _ f F1 ltac:(lia)). destruct (decide (3 = 5)%nat); [lia|].
    destruct IH1 as (f1 & H1 & ->). pose proof (Pos _ _ _ D1). destruct f1 as [|f1]; [lia|].
    exists f1. split; [lia|]. cbn [parse_rest]. rewrite Et.
    assert (So : starts_operand rest = false).
    { destruct rest as [|x rest]; [reflexivity|]. cbn in F. destruct x; try reflexivity; cbn in F; lia. }
    rewrite So. destruct t; try discriminate; reflexivity.
  - intros t k ts2 r Et D2 IH2 rest f F B. cbn [length app] in *.
    destruct (decide (3 = 5)%nat); [lia|]. destruct f as [|f]; [lia|]. exists f. split; [lia|].
    cbn [parse_level]. rewrite Et.
    rewrite (complete_level 4 ts2 r rest f); [reflexivity|lia|exact IH2|eapply NE; exact D2|exact F|lia].
  - intros ts e D IH rest f F B. destruct (decide (3 = 5)%nat); [lia|]. pose proof (Pos _ _ _ D).
    destruct f as [|f]; [lia|]. exists f. split; [lia|]. cbn [parse_level].
    assert (So : starts_operand ts = true) by (eapply ST; [exact D|lia]).
    assert (E : parse_level f 4 (ts ++ rest) = Some (e, rest)).
    { apply complete_level; [lia|exact IH|eapply NE; exact D|exact F|lia]. }
    destruct (ts ++ rest) as [|hd ts1] eqn:Ets; [destruct ts; discriminate|].
    rewrite (starts_name _ _ _ _ So Ets), E. reflexivity.
  - intros t f0 ts1 l Et D1 IH1 rest f F B. rewrite app_length in *. cbn [length] in *.
    destruct (decide (4 = 5)%nat); [lia|]. rewrite <- app_assoc. cbn [app].
    assert (F1 : follow 4 (t :: rest)) by (cbn; destruct t; try discriminate; cbn; lia).
    specialize (IH1 _ f F1 ltac:(lia)). destruct (decide (4 = 5)%nat); [lia|].
    destruct IH1 as (f1 & H1 & ->). pose proof (Pos _ _ _ D1). destruct f1 as [|f1]; [lia|].
    exists f1. split; [lia|]. cbn [parse_rest]. rewrite Et.
    destruct rest as [|x rest]; [reflexivity|]. cbn in F. destruct x; try reflexivity; cbn in F; lia.
  - intros t f0 n nm ts1 l Et En D1 IH1 rest f F B. rewrite app_length in *. cbn [length] in *.
    destruct (decide (4 = 5)%nat); [lia|]. rewrite <- app_assoc. cbn [app].
    assert (F1 : follow 4 (t :: n :: rest)) by (cbn; destruct t; try discriminate; cbn; lia).
    specialize (IH1 _ f F1 ltac:(lia)). destruct (decide (4 = 5)%nat); [lia|].
    destruct IH1 as (f1 & H1 & ->). pose proof (Pos _ _ _ D1). destruct f1 as [|f1]; [lia|].
    exists f1. split; [lia|]. cbn [parse_rest]. rewrite Et, En. reflexivity.
  - intros ts e D IH. apply Lift; [lia|assumption..].
  - intros ts e D IH rest f F B. cbn [length app] in *. rewrite app_length in B. cbn [length] in B.
    destruct (decide (5 = 5)%nat); [|lia]. destruct f as [|f]; [lia|]. cbn [parse_level].
    rewrite <- app_assoc. cbn [app].
    rewrite (complete_level 1 ts e (TClose :: rest) f); [reflexivity|lia|exact IH|eapply NE; exact D|cbn; lia|lia].
  - intros n nm ts args En D IH rest f F B. cbn [length app] in *. rewrite app_length in B. cbn [length] in B.
    destruct (decide (5 = 5)%nat) as [_|Nd]; [|lia]. destruct f as [|f]; [lia|]. cbn [parse_level].
    rewrite <- app_assoc. cbn [app]. rewrite En, (IH rest f) by lia.
    destruct n; try discriminate; reflexivity.
  - intros n nm En rest f F B. cbn [length app] in *. destruct (decide (5 = 5)%nat) as [_|Nd]; [|lia].
    destruct f as [|f]; [lia|]. cbn [parse_level]. rewrite En.
    destruct n; try discriminate; (destruct rest as [|x rest]; [reflexivity|]; destruct x; try reflexivity; cbn in F; lia).
  - intros rest f B. destruct f as [|f]; [cbn in B; lia|]. reflexivity.
  - intros ts e D IH rest f B. destruct f as [|f]; [lia|]. cbn [parse_args].
    pose proof (Pos _ _ _ D).
    rewrite (complete_level 1 ts e (TClose :: rest) f); [|lia|exact IH|eapply NE; exact D|cbn; lia|lia].
    pose proof (proj1 derives_not_close _ _ _ D) as NC.
    destruct ts as [|t ts]; [now apply NE in D|]. cbn [app]. destruct t; (reflexivity || contradiction).
  - intros ts e ts' es D IH Da IHa rest f B. rewrite app_length in B. cbn [length] in B.
    destruct f as [|f]; [lia|]. cbn [parse_args]. rewrite <- app_assoc. cbn [app].
    rewrite (complete_level 1 ts e (TComma :: ts' ++ TClose :: rest) f);
      [|lia|exact IH|eapply NE; exact D|cbn; lia|lia].
    rewrite (IHa rest f) by lia. pose proof (proj1 derives_not_close _ _ _ D) as NC.
    destruct ts as [|t ts]; [now apply NE in D|]. cbn [app]. destruct t; (reflexivity || contradiction).
Qed.

Lemma parse_tokens_spec ts e : parse_tokens ts = Some e <-> derives 1 ts e.
Proof.
  unfold parse_tokens. split.
  - destruct (parse_level _ 1 ts) as [[e1 [|t r]]|] eqn:E; try discriminate. intros [= <-].
    destruct (proj1 (parse_sound _) 1%nat _ _ _ ltac:(lia) E) as (t1 & -> & D). now rewrite app_nil_r.
  - intros D. pose proof (proj1 parse_complete _ _ _ D) as C.
    pose proof (complete_level 1 ts e [] (6 * length ts + 6) ltac:(lia) C
      (proj1 derives_nonempty _ _ _ D) I ltac:(lia)) as E.
    rewrite app_nil_r in E. rewrite E. reflexivity.
Qed.

Lemma grammar_unambiguous ts e1 e2 : derives 1 ts e1 -> derives 1 ts e2 -> e1 = e2.
Proof. rewrite <- !parse_tokens_spec. congruence. Qed.

(** ** The lexer *)

Lemma drop_length n s : String.length (drop_string n s) = (String.length s - n)%nat.
Proof. revert s. induction n as [|n IH]; intros [|c s]; cbn; try lia. apply IH. Qed.

Lemma skip_space_length s : (String.length (skip_space s) <= String.length s)%nat.
Proof. induction s as [|c s IH]; cbn; [lia|]. destruct (is_space c); cbn; lia. Qed.

Lemma lex_one_shorter s t s' : s <> "" -> lex_one s = Some (t, s') -> (String.length s' < String.length s)%nat.
Proof.
  unfold lex_one. intros Ne E. destruct (longest (candidates s) (0%nat, TComma)) as [[|n] t1]; [discriminate|].
  assert (Es : s' = drop_string (S n) s) by congruence. rewrite Es, drop_length. destruct s; [done|]. cbn. lia.
Qed.

(** The lexer without fuel. *)
Inductive lexes : string -> list token -> Prop :=
| lexes_nil s : skip_space s = "" -> lexes s []
| lexes_cons s t s' ts : skip_space s <> "" -> lex_one (skip_space s) = Some (t, s') ->
    lexes s' ts -> lexes s (t :: ts).

Lemma lex_spec s ts : lex s = Some ts <-> lexes s ts.
Proof.
  unfold lex. split.
  - generalize (String.length s). intros fuel. revert s ts.
    induction fuel as [|fuel IH]; intros s ts; cbn; destruct (skip_space s) as [|c s1] eqn:E.
    + intros [= <-]. now constructor.
    + discriminate.
    + intros [= <-]. now constructor.
    + destruct (lex_one (String c s1)) as [[t s2]|] eqn:E1; [|discriminate].
      destruct (lex_fuel fuel s2) as [ts1|] eqn:E2; [|discriminate]. intros [= <-].
      apply (lexes_cons _ _ s2); [congruence|rewrite E; exact E1|]. apply IH; exact E2.
  - intros H. assert (G : forall n, (String.length s <= n)%nat -> lex_fuel n s = Some ts); [|apply G; lia].
    induction H as [s H|s t s' ts Ne E H IH]; intros n Hn.
    + destruct n; cbn; rewrite H; reflexivity.
    + pose proof (lex_one_shorter _ _ _ Ne E). pose proof (skip_space_length s).
      destruct n as [|n]; [lia|]. cbn. destruct (skip_space s) as [|c s1] eqn:E1; [done|].
      rewrite E, (IH n) by lia. reflexivity.
Qed.

Lemma parse_spec s e : parse s = Some e <-> exists ts, lex s = Some ts /\ derives 1 ts e.
Proof.
  unfold parse. setoid_rewrite <- parse_tokens_spec. destruct (lex s) as [ts|].
  - split; [intros H; exists ts; auto|]. intros (ts' & [= ->] & H). exact H.
  - split; [discriminate|]. intros (ts' & H & _). discriminate.
Qed.

(** Longest match. *)
Lemma longest_first l d : longest l d = d \/ longest l d ∈ l.
Proof.
  revert d. induction l as [|c l IH]; intros d; [auto|].
  change (longest (c :: l) d) with (longest l (if Nat.ltb (fst d) (fst c) then c else d)).
  destruct (Nat.ltb (fst d) (fst c)).
  - destruct (IH c) as [->|H]; [right; constructor|right; now constructor].
  - destruct (IH d) as [->|H]; [auto|right; now constructor].
Qed.

Lemma longest_max l d : (forall c, c ∈ l -> (fst c <= fst d)%nat) -> longest l d = d.
Proof.
  induction l as [|c l IH]; intros H; [reflexivity|].
  change (longest (c :: l) d) with (longest l (if Nat.ltb (fst d) (fst c) then c else d)).
  assert (fst c <= fst d)%nat by (apply H; constructor).
  destruct (Nat.ltb_spec (fst d) (fst c)); [lia|]. apply IH. intros c' Hc. apply H. now constructor.
Qed.

Lemma longest_app l1 l2 d : longest (l1 ++ l2) d = longest l2 (longest l1 d).
Proof. unfold longest. apply fold_left_app. Qed.

Lemma longest_below l d n : (fst d < n)%nat -> (forall c, c ∈ l -> (fst c < n)%nat) ->
  (fst (longest l d) < n)%nat.
Proof.
  intros Hd Hl. destruct (longest_first l d) as [->|H]; [exact Hd|]. apply Hl. exact H.
Qed.

Lemma scons c (w rest : string) : String c w +:+ rest = String c (w +:+ rest).
Proof. reflexivity. Qed.
Lemma snil (rest : string) : "" +:+ rest = rest.
Proof. reflexivity. Qed.
Lemma substring_app w rest : substring 0 (String.length w) (w +:+ rest) = w.
Proof.
  induction w as [|c w IH]; [destruct rest; reflexivity|]. rewrite scons. cbn. f_equal. exact IH.
Qed.
Lemma drop_app w rest : drop_string (String.length w) (w +:+ rest) = rest.
Proof. induction w as [|c w IH]; [reflexivity|]. rewrite scons. exact IH. Qed.

Lemma is_space_blank c : is_space c = true <-> c ∈ blanks.
Proof.
  split.
  - intros H. apply elem_of_list_In. unfold blanks. destruct c as [[][][][][][][][]]; vm_compute in H; try discriminate H; cbn; auto 10.
  - unfold blanks. intros H. repeat (apply elem_of_cons in H as [->|H]; [reflexivity|]). by apply elem_of_nil in H.
Qed.

(** What may stand behind a word. *)
Definition delimited (rest : string) : Prop :=
  match rest with
  | EmptyString => True
  | String c _ => c = "("%char \/ c = ")"%char \/ c = ","%char \/ c ∈ blanks
  end.

Lemma word_len_delimited rest : delimited rest -> word_len rest = 0%nat.
Proof.
  destruct rest as [|c rest]; [reflexivity|]. intros [->|[->|[->|H]]]; [reflexivity..|].
  repeat (apply elem_of_cons in H as [->|H]; [reflexivity|]). by apply elem_of_nil in H.
Qed.

Lemma word_len_dotted w rest : dotted_word w -> delimited rest ->
  word_len (w +:+ rest) = String.length w.
Proof.
  intros W D. induction W as [a H|a H|a w H W IH|a w H W IH]; rewrite ?scons, ?snil; cbn.
  - rewrite H. rewrite word_len_delimited by exact D. reflexivity.
  - rewrite H. rewrite word_len_delimited by exact D. reflexivity.
  - rewrite H, IH. reflexivity.
  - rewrite H, IH. reflexivity.
Qed.

Lemma dotted_head w : dotted_word w ->
  exists c w', w = String c w' /\
    (word_char c = true \/ c = "."%char /\ exists b w'', w' = String b w'' /\ word_char b = true).
Proof. intros W. destruct W; eauto 10. Qed.

Lemma dotted_all_words w : dotted_word w -> w <> "".
Proof. destruct 1; discriminate. Qed.

Lemma word_char_not_space c : word_char c = true -> is_space c = false.
Proof. destruct c as [[][][][][][][][]]; vm_compute; congruence. Qed.

Lemma plain_head w rest : plain w -> exists c s, w +:+ rest = String c s /\ is_space c = false /\
  Ascii.eqb c dquote = false /\ Ascii.eqb c squote = false.
Proof.
  intros [[W| ->] _].
  - destruct (dotted_head w W) as (c & w' & -> & [H|[-> _]]); rewrite scons; eexists _, _; (split; [reflexivity|]).
    + destruct c as [[][][][][][][][]]; vm_compute in H |- *; try discriminate; auto.
    + auto.
  - eexists _, _. split; [reflexivity|]. auto.
Qed.

Lemma starts_with_inv p s : starts_with p s = true -> exists r, s = p +:+ r.
Proof.
  unfold starts_with. revert s. induction p as [|a p IH]; intros s H; cbn in *; [eauto|].
  destruct s as [|b s]; [discriminate|]. destruct (Ascii.eqb_spec a b); [|discriminate]. subst.
  destruct (IH s H) as (r & ->). eauto.
Qed.

(** A fixed token in front of a plain word is shorter than the word. *)
Lemma fixed_shorter p t w rest : (p, t) ∈ fixed_tokens -> plain w -> delimited rest ->
  starts_with p (w +:+ rest) = true -> (String.length p < String.length w)%nat.
Proof.
  intros Hp (W & N1 & N2 & N3) D S. apply starts_with_inv in S. destruct S as (r & E).
  unfold fixed_tokens in Hp.
  assert (Wd : forall c w', w = String c w' -> word_char c = true \/ c = "."%char).
  { intros c w' ->. destruct W as [W|[= -> _]]; [|auto].
    destruct (dotted_head _ W) as (c1 & w1 & [= <- <-] & [H|[H _]]); auto. }
  assert (W2 : forall w', w = String "." (String "." w') -> False).
  { intros w' ->. destruct W as [W|W]; [|discriminate].
    destruct (dotted_head _ W) as (c1 & w1 & [= <- <-] & [H|[_ (b & w2 & [= <- <-] & H)]]); vm_compute in H; discriminate. }
  assert (Wne : w <> "").
  { destruct W as [W| ->]; [apply dotted_all_words; exact W|discriminate]. }
  assert (First : forall a p', p = String a p' -> word_char a = false -> a <> "."%char -> False).
  { intros a p' -> H1 H2. destruct w as [|c w']; [done|]. rewrite !scons in E. injection E as -> _.
    destruct (Wd _ _ eq_refl) as [H|H]; congruence. }
  repeat (apply elem_of_cons in Hp; destruct Hp as [[= -> ->]|Hp];
    [try (exfalso; eapply First; [reflexivity|reflexivity|discriminate])|]).
  - (* or *) destruct w as [|c1 [|c2 [|c3 w]]]; rewrite ?scons, ?snil in E; cbn in *; try lia; try done;
      try (injection E as -> -> ->; done); try (injection E as -> E; destruct rest as [|d rest]; [discriminate|];
        injection E as -> E; cbn in D; destruct D as [D|[D|[D|D]]]; [discriminate D..|apply is_space_blank in D; discriminate D]).
  - (* and *) destruct w as [|c1 [|c2 [|c3 [|c4 w]]]]; rewrite ?scons, ?snil in E; cbn in *; try lia; try done.
    + injection E as -> E. destruct rest as [|d rest]; [discriminate|].
      injection E as -> E. cbn in D. destruct D as [D|[D|[D|D]]]; [discriminate D..|apply is_space_blank in D; discriminate D].
    + injection E as -> -> E. destruct rest as [|d rest]; [discriminate|].
      injection E as -> E. cbn in D. destruct D as [D|[D|[D|D]]]; [discriminate D..|apply is_space_blank in D; discriminate D].
    + injection E as -> -> -> E. done.
  - (* - *) destruct w as [|c1 [|c2 w]]; rewrite ?scons, ?snil in E; cbn in *; try lia; try done. injection E as -> E. done.
  - (* .. *) destruct w as [|c1 [|c2 w]]; rewrite ?scons, ?snil in E; cbn in *; try lia; try done.
    + injection E as -> E. destruct rest as [|d rest]; [discriminate|].
      injection E as -> E. cbn in D. destruct D as [D|[D|[D|D]]]; [discriminate D..|apply is_space_blank in D; discriminate D].
    + injection E as -> -> E. exfalso. eapply W2. reflexivity.
  - now apply elem_of_nil in Hp.
Qed.

Lemma word_match_plain w rest : plain w -> delimited rest -> word_match (w +:+ rest) = String.length w.
Proof.
  intros [[W| ->] _] D; unfold word_match.
  - rewrite word_len_dotted by assumption. apply dotted_all_words in W. destruct w; [done|reflexivity].
  - cbn. destruct rest as [|c rest]; [reflexivity|]. cbn in D. destruct D as [->|[->|[->|H]]]; [reflexivity..|].
    repeat (apply elem_of_cons in H as [->|H]; [reflexivity|]). by apply elem_of_nil in H.
Qed.

Lemma lex_one_word w rest : plain w -> delimited rest -> lex_one (w +:+ rest) = Some (TWord w, rest).
Proof.
  intros P D. unfold lex_one, candidates. rewrite longest_app. cbv zeta.
  rewrite word_match_plain, substring_app by assumption.
  set (d := longest (flat_map _ _) _).
  assert (Wl : (1 <= String.length w)%nat).
  { destruct P as [[W| ->] _]; [|cbn; lia]. apply dotted_all_words in W. destruct w; [done|cbn; lia]. }
  assert (Hd : (fst d < String.length w)%nat).
  { subst d. apply longest_below; [cbn; lia|]. intros c Hc. apply elem_of_list_In, in_flat_map in Hc.
    destruct Hc as ([p t] & Hp & Hc). destruct (starts_with (fst (p, t)) (w +:+ rest)) eqn:S; [|destruct Hc].
    destruct Hc as [<-|[]]. cbn. eapply fixed_shorter; [apply elem_of_list_In; exact Hp|exact P|exact D|exact S]. }
  destruct (plain_head w rest P) as (c & s & E & _ & E1 & E2).
  assert (L0 : literal_match (w +:+ rest) = 0%nat) by (rewrite E; unfold literal_match; rewrite E1, E2; reflexivity).
  rewrite L0.
  assert (Lo : longest ([(String.length w, TWord w)] ++ [(0%nat, TLiteral (substring 0 0 (w +:+ rest)))]) d
               = (String.length w, TWord w)).
  { rewrite longest_app. unfold longest at 2. cbn [fold_left fst].
    destruct (Nat.ltb_spec (fst d) (String.length w)); [|lia]. apply longest_max.
    intros c0 ->%elem_of_list_singleton. cbn. lia. }
  rewrite Lo. destruct (String.length w) as [|n] eqn:El; [lia|]. rewrite <- El, drop_app. reflexivity.
Qed.

(** ** Printing and parsing *)

Fixpoint toks (e : expr) : list token :=
  match e with
  | Name s => [TWord s]
  | Call f args =>
      let fix go (first : bool) (l : list expr) : list token :=
        match l with
        | [] => []
        | a :: l' => (if first then [] else [TComma]) ++ toks a ++ go false l'
        end in
      TWord f :: TOpen :: go true args ++ [TClose]
  end.

Fixpoint toks_args (first : bool) (l : list expr) : list token :=
  match l with
  | [] => []
  | a :: l' => (if first then [] else [TComma]) ++ toks a ++ toks_args false l'
  end.
Fixpoint show_args (first : bool) (l : list expr) : string :=
  match l with
  | [] => ""
  | a :: l' => (if first then "" else ", ") +:+ show a +:+ show_args false l'
  end.
Lemma toks_call f args : toks (Call f args) = TWord f :: TOpen :: toks_args true args ++ [TClose].
Proof. reflexivity. Qed.
Lemma show_call f args : show (Call f args) = f +:+ "(" +:+ show_args true args +:+ ")".
Proof. reflexivity. Qed.

Lemma plain_call f args : plain_expr (Call f args) <-> plain f /\ Forall plain_expr args.
Proof.
  cbn. split; intros [H1 H2]; (split; [exact H1|]); clear H1.
  - induction args as [|a l IH]; [constructor|]. destruct H2. constructor; auto.
  - induction H2; cbn; auto.
Qed.

Lemma toks_derive e : derives 5 (toks e) e.
Proof.
  induction e as [s|f args IH] using expr_ind'; [now constructor|].
  rewrite toks_call. apply d_call; [reflexivity|].
  assert (Lift : forall ts e, derives 5 ts e -> derives 1 ts e).
  { intros. apply d_1, d_2, d_3, d_4. assumption. }
  destruct args as [|a l]; [constructor|]. inversion_clear IH as [|? ? Ha Hl]. cbn [toks_args app].
  revert a Ha. induction Hl as [|b l Hb Hl IHl]; intros a Ha; cbn [toks_args app].
  - rewrite app_nil_r. apply a_last. auto.
  - apply a_cons; [auto|]. apply IHl. exact Hb.
Qed.

Lemma lexes_fixed c t s ts : is_space c = false -> lex_one (String c s) = Some (t, s) ->
  lexes s ts -> lexes (String c s) (t :: ts).
Proof.
  intros H1 H2 H3. assert (E : skip_space (String c s) = String c s) by (cbn; rewrite H1; reflexivity).
  apply (lexes_cons _ _ s); [rewrite E; discriminate|rewrite E; exact H2|exact H3].
Qed.

Lemma lexes_space c s ts : is_space c = true -> lexes s ts -> lexes (String c s) ts.
Proof.
  intros H1 H. assert (E : skip_space (String c s) = skip_space s) by (cbn; rewrite H1; reflexivity).
  inversion H; subst.
  - constructor. rewrite E. assumption.
  - eapply lexes_cons; [rewrite E; eassumption|rewrite E; eassumption|assumption].
Qed.

Lemma app_str_assoc (a b c : string) : (a +:+ b) +:+ c = a +:+ (b +:+ c).
Proof. induction a as [|x a IH]; [reflexivity|]. rewrite !scons. f_equal. exact IH. Qed.

Lemma lexes_show e : plain_expr e -> forall rest ts, delimited rest -> lexes rest ts ->
  lexes (show e +:+ rest) (toks e ++ ts).
Proof.
  assert (Wd : forall w rest ts, plain w -> delimited rest -> lexes rest ts -> lexes (w +:+ rest) (TWord w :: ts)).
  { intros w rest ts P D L. destruct (plain_head w rest P) as (c & s & E & Sp & _).
    assert (Es : skip_space (w +:+ rest) = w +:+ rest) by (rewrite E; cbn; rewrite Sp; reflexivity).
    apply (lexes_cons _ _ rest); [rewrite Es, E; discriminate| |exact L].
    rewrite Es. apply lex_one_word; assumption. }
  induction e as [s|f args IH] using expr_ind'; intros P rest ts D L; [apply Wd; assumption|].
  apply plain_call in P. destruct P as [Pf Pa]. rewrite show_call, toks_call, !app_str_assoc.
  cbn [app]. apply Wd; [exact Pf|left; reflexivity|]. change ("(" +:+ ?x) with (String "(" x).
  apply lexes_fixed; [reflexivity..|]. rewrite <- app_assoc. cbn [app].
  assert (Lc : lexes (")" +:+ rest) (TClose :: ts)).
  { change (")" +:+ rest) with (String ")" rest). apply lexes_fixed; [reflexivity..|exact L]. }
  assert (Dc : delimited (")" +:+ rest)) by (right; left; reflexivity).
  revert Lc Dc. generalize (")" +:+ rest) (TClose :: ts). clear L D Pf rest ts. intros rest ts L D.
  assert (G : lexes (show_args false args +:+ rest) (toks_args false args ++ ts) /\
              delimited (show_args false args +:+ rest) /\
              lexes (show_args true args +:+ rest) (toks_args true args ++ ts)).
  { induction args as [|a l IHl]; [cbn; auto|].
    inversion_clear IH as [|? ? Ha Hl]. inversion_clear Pa as [|? ? Pa1 Pl].
    destruct (IHl Hl Pl) as (L1 & D1 & _). cbn [show_args toks_args].
    rewrite !app_str_assoc. rewrite <- !app_assoc. split_and!.
    - change (", " +:+ ?x) with (String "," (String " " x)). cbn [app].
      apply lexes_fixed; [reflexivity..|]. apply lexes_space; [reflexivity|]. apply Ha; assumption.
    - change (", " +:+ ?x) with (String "," (String " " x)). right. right. left. reflexivity.
    - cbn [app]. change ("" +:+ ?x) with x. apply Ha; assumption. }
  apply G.
Qed.

Lemma show_parse e : plain_expr e -> parse (show e) = Some e.
Proof.
  intros P. apply parse_spec. exists (toks e ++ []). split.
  - apply lex_spec.
    assert (E : show e = show e +:+ "").
    { clear. induction (show e) as [|c s IH]; [reflexivity|]. rewrite scons. f_equal. exact IH. }
    rewrite E. apply lexes_show; [exact P|exact I|]. constructor. reflexivity.
  - rewrite app_nil_r. apply d_1, d_2, d_3, d_4, toks_derive.
Qed.

(** ** Precedence *)

Lemma derives_lift l l' ts e : derives l ts e -> (1 <= l' <= l)%nat -> (l <= 5)%nat -> derives l' ts e.
Proof.
  intros D [L1 L2] L5. destruct (decide (l = l')) as [<-|N]; [exact D|].
  assert (H : forall k, (l' <= k <= l)%nat -> derives k ts e); [|apply H; lia].
  assert (G : forall n k, (l - k = n)%nat -> (l' <= k <= l)%nat -> derives k ts e).
  { induction n as [|n IH]; intros k Hk Hr; [replace k with l by lia; exact D|].
    assert (Dk : derives (S k) ts e) by (apply IH; lia).
    assert (C : k = 1 \/ k = 2 \/ k = 3 \/ k = 4) by lia.
    destruct C as [->|[->|[->| ->]]]; [now apply d_1|now apply d_2|now apply d_3|now apply d_4]. }
  intros k Hk. now apply (G (l - k)%nat).
Qed.

Lemma derives_binary t l r e tl tr : binary_tree t l r = Some e ->
  derives (binding t) tl l -> derives (S (binding t)) tr r -> derives (binding t) (tl ++ t :: tr) e.
Proof.
  intros E Dl Dr. destruct t; try discriminate; injection E as <-; cbn [binding] in *.
  1: exact (d_union TPipe _ _ _ _ _ eq_refl Dl Dr).
  1: exact (d_union TPlus _ _ _ _ _ eq_refl Dl Dr).
  1: exact (d_union TOr _ _ _ _ _ eq_refl Dl Dr).
  1: exact (d_set TAmp _ _ _ _ _ eq_refl Dl Dr).
  1: exact (d_set TAnd _ _ _ _ _ eq_refl Dl Dr).
  1: exact (d_set TMinus _ _ _ _ _ eq_refl Dl Dr).
  1: exact (d_set TPercent _ _ _ _ _ eq_refl Dl Dr).
  1: exact (d_range TColon _ _ _ _ _ eq_refl Dl Dr).
  1: exact (d_range TColonColon _ _ _ _ _ eq_refl Dl Dr).
  1: exact (d_range TDotDot _ _ _ _ _ eq_refl Dl Dr).
Qed.

Lemma binary_binding t l r e : binary_tree t l r = Some e -> (1 <= binding t <= 3)%nat.
Proof. destruct t; try discriminate; cbn; lia. Qed.

Lemma precedence_left t1 t2 ta tb tc a b c ab abc :
  derives 5 ta a -> derives 5 tb b -> derives 5 tc c -> (binding t2 <= binding t1)%nat ->
  binary_tree t1 a b = Some ab -> binary_tree t2 ab c = Some abc ->
  parse_tokens (ta ++ t1 :: tb ++ t2 :: tc) = Some abc.
Proof.
  intros Da Db Dc B E1 E2. apply parse_tokens_spec.
  pose proof (binary_binding _ _ _ _ E1). pose proof (binary_binding _ _ _ _ E2).
  apply (derives_lift (binding t2)); [|lia|lia].
  replace (ta ++ t1 :: tb ++ t2 :: tc) with ((ta ++ t1 :: tb) ++ t2 :: tc) by (rewrite <- app_assoc; reflexivity).
  eapply derives_binary; [exact E2| |eapply derives_lift; [exact Dc|lia|lia]].
  apply (derives_lift (binding t1)); [|lia|lia].
  eapply derives_binary; [exact E1|eapply derives_lift; [exact Da|lia|lia]|eapply derives_lift; [exact Db|lia|lia]].
Qed.

Lemma precedence_right t1 t2 ta tb tc a b c bc abc :
  derives 5 ta a -> derives 5 tb b -> derives 5 tc c -> (binding t1 < binding t2)%nat ->
  binary_tree t2 b c = Some bc -> binary_tree t1 a bc = Some abc ->
  parse_tokens (ta ++ t1 :: tb ++ t2 :: tc) = Some abc.
Proof.
  intros Da Db Dc B E1 E2. apply parse_tokens_spec.
  pose proof (binary_binding _ _ _ _ E1). pose proof (binary_binding _ _ _ _ E2).
  apply (derives_lift (binding t1)); [|lia|lia].
  eapply derives_binary; [exact E2|eapply derives_lift; [exact Da|lia|lia]|].
  apply (derives_lift (binding t2)); [|lia|lia].
  eapply derives_binary; [exact E1|eapply derives_lift; [exact Db|lia|lia]|eapply derives_lift; [exact Dc|lia|lia]].
Qed.

Lemma postfix_tightest t p ta tb a b b' e : derives 5 ta a -> derives 5 tb b ->
  nth_tree p b "1" = Some b' -> binary_tree t a b' = Some e ->
  parse_tokens (ta ++ t :: tb ++ [p]) = Some e.
Proof.
  intros Da Db Ep E. apply parse_tokens_spec. pose proof (binary_binding _ _ _ _ E).
  apply (derives_lift (binding t)); [|lia|lia].
  eapply derives_binary; [exact E|eapply derives_lift; [exact Da|lia|lia]|].
  apply (derives_lift 4); [|lia|lia].
  destruct p; try discriminate Ep; injection Ep as <-; (apply d_nth_1; [reflexivity|]; now apply d_4).
Qed.

Lemma nth_number p n nm ta a e : derives 5 ta a -> name_of n = Some nm -> nth_tree p a nm = Some e ->
  parse_tokens (ta ++ [p; n]) = Some e.
Proof.
  intros Da En E. apply parse_tokens_spec. apply (derives_lift 4); [|lia|lia].
  destruct p; try discriminate E; injection E as <-;
    (apply d_nth; [reflexivity|exact En|]; now apply d_4).
Qed.

Lemma range_one_sided t ta a e : derives 5 ta a ->
  (prefix_tree t a = Some e -> parse_tokens (t :: ta) = Some e) /\
  (postfix_tree t a = Some e -> parse_tokens (ta ++ [t]) = Some e).
Proof.
  intros Da. split; intros E; apply parse_tokens_spec; (apply (derives_lift 3); [|lia|lia]).
  - destruct t; try discriminate E; injection E as <-;
      (refine (d_prefix _ _ _ _ _ _); [reflexivity|]; now apply d_4).
  - destruct t; try discriminate E; injection E as <-;
      (refine (d_postfix _ _ _ _ _ _); [reflexivity|]; now apply d_3, d_4).
Qed.

(** The operators as text. *)
Lemma lex_operator s t b rest : (s, t) ∈ spelling -> b ∈ blanks ->
  exists c s', s +:+ String b rest = String c s' /\ is_space c = false /\
    lex_one (s +:+ String b rest) = Some (t, String b rest).
Proof.
  intros H B. unfold spelling in H. unfold blanks in B.
  repeat (apply elem_of_cons in B; destruct B as [->|B]; [|]); [..|by apply elem_of_nil in B].
  all: repeat (apply elem_of_cons in H; destruct H as [[= -> ->]|H];
    [eexists _, _; split; [rewrite !scons; reflexivity|split; [reflexivity|]]; rewrite !scons, !snil; reflexivity|]).
  all: now apply elem_of_nil in H.
Qed.

Lemma lexes_blank w s ts : blank w -> lexes s ts -> lexes (w +:+ s) ts.
Proof.
  intros W L. unfold blank in W. induction w as [|c w IH]; [exact L|]. cbn in W. inversion_clear W as [|? ? Hc Hw].
  rewrite scons. apply lexes_space; [by apply is_space_blank|]. by apply IH.
Qed.
Lemma lexes_end w : blank w -> lexes w [].
Proof.
  intros W. constructor. unfold blank in W. induction w as [|c w IH]; [reflexivity|]. cbn in W. inversion_clear W as [|? ? Hc Hw].
  cbn. rewrite (proj2 (is_space_blank c) Hc). by apply IH.
Qed.
Lemma delimited_blank w s : blank w -> w <> "" -> delimited (w +:+ s).
Proof. intros W N. destruct w as [|c w]; [done|]. inversion_clear W as [|? ? Hc Hw]. rewrite scons. right. right. right. exact Hc. Qed.
Lemma delimited_end w : blank w -> delimited w.
Proof. intros W. destruct w as [|c w]; [exact I|]. inversion_clear W. right. right. right. assumption. Qed.

Lemma operator_text s t a b e w0 w1 w2 w3 : (s, t) ∈ spelling -> plain_expr a -> plain_expr b ->
  blank w0 -> blank w1 -> w1 <> "" -> blank w2 -> w2 <> "" -> blank w3 ->
  binary_tree t a b = Some e -> parse (w0 +:+ show a +:+ w1 +:+ s +:+ w2 +:+ show b +:+ w3) = Some e.
Proof.
  intros H Pa Pb W0 W1 N1 W2 N2 W3 E. apply parse_spec. exists (toks a ++ t :: toks b). split.
  - apply lex_spec. apply lexes_blank; [exact W0|]. apply lexes_show; [exact Pa|by apply delimited_blank|].
    apply lexes_blank; [exact W1|].
    assert (L3 : lexes (w2 +:+ show b +:+ w3) (toks b)).
    { apply lexes_blank; [exact W2|]. rewrite <- (app_nil_r (toks b)). apply lexes_show; [exact Pb|by apply delimited_end|by apply lexes_end]. }
    destruct w2 as [|c2 w2]; [done|]. assert (C2 : c2 ∈ blanks) by (inversion_clear W2; assumption). rewrite scons in L3 |- *.
    destruct (lex_operator s t c2 (w2 +:+ show b +:+ w3) H C2) as (c & s' & E1 & E2 & E3).
    assert (Es : skip_space (s +:+ String c2 (w2 +:+ show b +:+ w3)) = s +:+ String c2 (w2 +:+ show b +:+ w3))
      by (rewrite E1; cbn; rewrite E2; reflexivity).
    apply (lexes_cons _ _ (String c2 (w2 +:+ show b +:+ w3))); [rewrite Es, E1; discriminate|rewrite Es; exact E3|exact L3].
  - pose proof (binary_binding _ _ _ _ E). apply (derives_lift (binding t)); [|lia|lia].
    eapply derives_binary; [exact E|eapply derives_lift; [apply toks_derive|lia|lia]..].
Qed.

(** Blanks around an expression. *)
Lemma parse_blanks e w0 w1 : plain_expr e -> blank w0 -> blank w1 -> parse (w0 +:+ show e +:+ w1) = Some e.
Proof.
  intros P W0 W1. apply parse_spec. exists (toks e ++ []). split.
  - apply lex_spec. apply lexes_blank; [exact W0|]. apply lexes_show; [exact P|by apply delimited_end|by apply lexes_end].
  - rewrite app_nil_r. apply d_1, d_2, d_3, d_4, toks_derive.
Qed.

(** ** String literals *)

Fixpoint has_char (a : ascii) (s : string) : bool :=
  match s with EmptyString => false | String c s' => Ascii.eqb c a || has_char a s' end.
Fixpoint map_string (f : ascii -> ascii) (s : string) : string :=
  match s with EmptyString => "" | String c s' => String (f c) (map_string f s') end.

Lemma pop_app s c : pop (s +:+ String c "") = s.
Proof.
  induction s as [|a s IH]; [reflexivity|]. rewrite scons. cbn. destruct (s +:+ String c "") eqn:E.
  - destruct s; discriminate.
  - rewrite IH. reflexivity.
Qed.

Lemma unescape_escaped c : unescape_char c = escaped c.
Proof. destruct c as [[][][][][][][][]]; reflexivity. Qed.
Lemma unescape_loop_true s : unescape_loop true s = map_string escaped s.
Proof. induction s as [|c s IH]; cbn; [reflexivity|]. now rewrite unescape_escaped, IH. Qed.

Lemma map_string_app f a b : map_string f (a +:+ b) = map_string f a +:+ map_string f b.
Proof. induction a as [|c a IH]; [reflexivity|]. rewrite scons. cbn. rewrite IH. reflexivity. Qed.

Lemma unescape_loop_plain a s : has_char "\" a = false ->
  unescape_loop false (a +:+ s) = a +:+ unescape_loop false s.
Proof.
  induction a as [|c a IH]; [reflexivity|]. cbn [has_char]. rewrite orb_false_iff. intros [H1 H2].
  rewrite !scons. cbn. rewrite H1, IH by exact H2. reflexivity.
Qed.

Lemma unescape_exact_plain q a : has_char "\" a = false -> Ascii.eqb q "\" = false ->
  unescape (String q (a +:+ String q "")) = a.
Proof.
  intros H Hq. cbn [unescape]. rewrite unescape_loop_plain by exact H. cbn. rewrite Hq. apply pop_app.
Qed.

Lemma unescape_exact_escape q a b : has_char "\" a = false ->
  unescape (String q (a +:+ String "\" (b +:+ String q ""))) = a +:+ map_string escaped b.
Proof.
  intros H. cbn [unescape]. rewrite unescape_loop_plain by exact H. cbn.
  rewrite unescape_loop_true, map_string_app, <- app_str_assoc. cbn. apply pop_app.
Qed.

Lemma literal_end_plain q a rest : has_char q a = false -> has_char "\" a = false ->
  literal_end q false (a +:+ String q rest) = Some (S (String.length a)).
Proof.
  induction a as [|c a IH]; intros H1 H2.
  - rewrite snil. cbn. rewrite Ascii.eqb_refl. reflexivity.
  - rewrite scons. cbn [has_char] in H1, H2. apply orb_false_iff in H1, H2.
    destruct H1 as [H1 H1'], H2 as [H2 H2']. cbn [literal_end]. rewrite H1, H2, IH by assumption. reflexivity.
Qed.

Definition is_quote (q : ascii) : Prop := q = dquote \/ q = squote.

Lemma string_length_app a b : String.length (a +:+ b) = (String.length a + String.length b)%nat.
Proof. induction a as [|c a IH]; [reflexivity|]. rewrite scons. cbn. rewrite IH. reflexivity. Qed.

Lemma lex_one_literal q a rest : is_quote q -> has_char q a = false -> has_char "\" a = false ->
  lex_one (String q (a +:+ String q rest)) = Some (TLiteral (String q (a +:+ String q "")), rest).
Proof.
  intros Q H1 H2. set (lit := String q (a +:+ String q "")).
  assert (E : String q (a +:+ String q rest) = lit +:+ rest).
  { subst lit. rewrite scons, app_str_assoc. reflexivity. }
  rewrite E. unfold lex_one, candidates. rewrite !longest_app. cbv zeta.
  assert (L : literal_match (lit +:+ rest) = String.length lit).
  { rewrite <- E. unfold literal_match. assert (Hq : Ascii.eqb q dquote || Ascii.eqb q squote = true).
    { destruct Q as [->| ->]; reflexivity. }
    rewrite Hq, literal_end_plain by assumption. subst lit. cbn. rewrite string_length_app. cbn. lia. }
  rewrite L, substring_app.
  assert (W : word_match (lit +:+ rest) = 0%nat) by (rewrite <- E; destruct Q as [->| ->]; reflexivity).
  rewrite W.
  assert (F : flat_map (fun pt => if starts_with (fst pt) (lit +:+ rest)
                                  then [(String.length (fst pt), snd pt)] else []) fixed_tokens = []).
  { rewrite <- E. destruct Q as [->| ->]; reflexivity. }
  rewrite F. unfold longest. cbn [fold_left fst Nat.ltb Nat.leb].
  replace (substring 0 0 (lit +:+ rest)) with "" by (rewrite <- E; reflexivity).
  assert (1 <= String.length lit)%nat by (subst lit; cbn; lia).
  destruct (Nat.ltb_spec 0 (String.length lit)); [|lia].
  destruct (String.length lit) as [|n] eqn:En; [lia|]. rewrite <- En, drop_app. reflexivity.
Qed.

Lemma unescape_shape b s : exists u v, unescape_loop b s = u +:+ v /\ has_char "\" u = false /\ has_char "n" v = false.
Proof.
  revert b. induction s as [|c s IH]; intros b; [exists "", ""; cbn; auto|]. destruct b.
  - exists "", (unescape_loop true (String c s)). split_and!; [reflexivity|reflexivity|].
    rewrite unescape_loop_true. cbn [map_string has_char].
    assert (E : Ascii.eqb (unescape_char c) "n" = false).
    { unfold unescape_char. destruct (Ascii.eqb c "n") eqn:E1; [reflexivity|].
      destruct (Ascii.eqb c "r"); [reflexivity|]. destruct (Ascii.eqb c "t"); [reflexivity|exact E1]. }
    rewrite <- unescape_escaped, E. cbn. clear. induction s as [|d s IH]; [reflexivity|]. cbn. rewrite IH, orb_false_r, <- unescape_escaped.
    unfold unescape_char. destruct (Ascii.eqb d "n") eqn:E1; [reflexivity|].
    destruct (Ascii.eqb d "r"); [reflexivity|]. destruct (Ascii.eqb d "t"); [reflexivity|exact E1].
  - cbn [unescape_loop]. destruct (Ascii.eqb c "\") eqn:E.
    + apply IH.
    + destruct (IH false) as (u & v & E1 & H1 & H2). exists (String c u), v. rewrite E1.
      split_and!; [reflexivity| |exact H2]. cbn. rewrite E, H1. reflexivity.
Qed.

Lemma no_backslash_n lit : unescape lit <> String "\" "n".
Proof.
  intros E. destruct lit as [|q s]; [discriminate|]. cbn [unescape] in E.
  assert (P : exists c, unescape_loop false s = String "\" (String "n" (String c ""))).
  { destruct (unescape_loop false s) as [|c1 [|c2 [|c3 [|c4 r]]]]; cbn in E; try discriminate.
    injection E as -> ->. eauto. }
  destruct P as (c & P). destruct (unescape_shape false s) as (u & v & E1 & H1 & H2).
  rewrite P in E1. destruct u as [|c1 u]; [rewrite snil in E1; subst v; discriminate|].
  rewrite scons in E1. injection E1 as <- E1. discriminate.
Qed.
