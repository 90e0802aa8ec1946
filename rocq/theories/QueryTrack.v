(** Filtered tracks and event searches of the experiments. *)
From Verif Require Import Base BaseSpec BaseSpecLemmas F64 Tson TsonInd TsonSpec TextSpec F64Lemmas BaseLemmas TsonLemmas ConvLemmas Heap HeapSpec Patch Own PatchSpec TreePatch PatchLemmas
  Serial Logument LogSpec LogLemmas ChangeLemmas CompactLemmas ReplaySpec ReplayLemmas SetLemmas CompactReplay Json Tjson TjsonSpec Initial InitialSpec Query QuerySpec QueryLemmas.
From Coq Require Import Lia.

Lemma filter_b {A} (P : A -> Prop) `{!forall x, Decision (P x)} l : List.filter (fun x => bool_decide (P x)) l = filter P l.
Proof.
  induction l as [|x l IH]; [done|]. cbn [List.filter]. rewrite filter_cons, IH. case_decide as Hx.
  - by rewrite bool_decide_eq_true_2.
  - by rewrite bool_decide_eq_false_2.
Qed.
Lemma filter_true {A} (P : A -> Prop) `{!forall x, Decision (P x)} (l : list A) : (forall x, x ∈ l -> P x) -> filter P l = l.
Proof.
  induction l as [|x l IH]; intros Hall; [done|]. rewrite filter_cons, decide_True by apply Hall, elem_of_list_here.
  f_equal. apply IH. intros y Hy. apply Hall. by apply elem_of_list_further.
Qed.
Notation at_p path := (fun p => op_path p = path).
Lemma last_on_filter path p seen : op_path p = path -> last_on (op_path p) (filter (at_p path) seen) = last_on (op_path p) seen.
Proof.
  intros <-. unfold last_on. f_equal. apply filter_true. intros x Hx. apply elem_of_list_filter in Hx. tauto.
Qed.
Lemma changed_filter path p seen : op_path p = path -> changed (filter (at_p path) seen) p <-> changed seen p.
Proof. intros H. unfold changed. by rewrite last_on_filter. Qed.
Lemma changes_filter path l : forall seen, filter (at_p path) (changes seen l) = changes (filter (at_p path) seen) (filter (at_p path) l).
Proof.
  induction l as [|p l IH]; intros seen; [done|]. cbn [changes]. rewrite filter_app, IH, (filter_cons _ p l), filter_app, (filter_cons _ p []).
  change (filter (at_p path) []) with (@nil operation). destruct (decide (op_path p = path)) as [Hp|Hp].
  - cbn [changes]. f_equal. destruct (decide (changed seen p)) as [Hc|Hc].
    + rewrite filter_cons, decide_True by done. rewrite decide_True; [done|by apply changed_filter].
    + rewrite decide_False; [done|by rewrite changed_filter].
  - rewrite app_nil_r. case_decide as Hc; [|done]. rewrite filter_cons, decide_False by done. done.
Qed.
Lemma filter_on path s e (l : list operation) : filter (at_p path) (filter (LogSpec.in_range s e) l) = filter (on_path path s e) l.
Proof.
  rewrite list_filter_filter. apply list_filter_iff. intros p. unfold on_path, LogSpec.in_range. tauto.
Qed.

(** The track of one path only depends on the operations on it. *)
Lemma filter_track_spec s e path h L st m : consistent L -> temporal_track s e (h, L) = (st, Ok m) ->
  forall v, filter_track m path !! v =
    match changes (filter (on_path path s e) (ops_between L 0 v)) (filter (on_path path s e) (patch_at L v)) with
    | [] => None
    | ps => Some ps
    end.
Proof.
  intros HC E v. destruct (temporal_track_spec s e h L HC) as [_ H]. rewrite E in H. cbn [snd] in H. destruct H as [_ H].
  unfold filter_track. rewrite lookup_omap, H.
  rewrite <- !filter_on, <- changes_filter.
  remember (changes (filter (LogSpec.in_range s e) (ops_between L 0 v)) (filter (LogSpec.in_range s e) (patch_at L v))) as c eqn:Ec.
  destruct c as [|p c]; [done|]. change (Some (p :: c) ≫= ?f) with (f (p :: c)). cbv beta.
  rewrite (filter_b (at_p path)). by destruct (filter _ (p :: c)).
Qed.
(** ** Events *)
Lemma events_changes L s e path : forall n, concat (map (fun v => filter (at_p path) (changes (filter (LogSpec.in_range s e) (ops_between L 0 v)) (filter (LogSpec.in_range s e) (patch_at L v)))) (range 0 n))
  = changes [] (filter (on_path path s e) (ops_between L 0 n)).
Proof.
  intros n. remember (N.to_nat n) as d eqn:Ed. revert n Ed. induction d as [|d IH]; intros n Ed.
  - assert (n = 0%N) as -> by lia. done.
  - assert (En : n = (n - 1 + 1)%N) by lia. rewrite En at 1 2.
    rewrite ops_between_snoc by lia. rewrite filter_app, changes_app. cbn [app].
    assert (Er : range 0 (n - 1 + 1) = range 0 (n - 1) ++ [(n - 1)%N]).
    { unfold range. replace (N.to_nat (n - 1 + 1 - 0)) with (S (N.to_nat (n - 1 - 0))) by lia.
      rewrite seq_S, map_app. cbn [map]. do 3 f_equal. lia. }
    rewrite Er, map_app, concat_app, (IH (n - 1)%N) by lia. f_equal. cbn [map concat]. rewrite app_nil_r.
    by rewrite changes_filter, !filter_on.
Qed.
Lemma over_exceeds thr p : over thr p <-> exceeds thr (op_value p) = true.
Proof. unfold over, exceeds. by destruct (op_value p). Qed.
Lemma events_of_filter path thr ps : events_of path thr ps = map op_ts (filter (over thr) (filter (at_p path) ps)).
Proof.
  unfold events_of. f_equal. induction ps as [|p ps IH]; [done|]. cbn [List.filter]. rewrite (filter_cons (at_p path)), IH. case_decide as H.
  - rewrite bool_decide_eq_true_2 by done. cbn [andb]. rewrite filter_cons.
    destruct (exceeds thr (op_value p)) eqn:Ex; [by rewrite decide_True by (by apply over_exceeds)|]. rewrite decide_False; [done|]. rewrite over_exceeds. congruence.
  - by rewrite bool_decide_eq_false_2.
Qed.
Lemma find_events_spec ord path s e thr h L st zs : consistent L -> (forall x, ord x ≡ₚ x) ->
  find_events ord path s e thr (h, L) = (st, Ok zs) ->
  zs ≡ₚ map op_ts (filter (over thr) (changes [] (filter (on_path path s e) (all_ops L)))).
Proof.
  intros HC HO E. unfold find_events in E.
  destruct (temporal_track_spec s e h L HC) as [_ H]. destruct (temporal_track s e (h, L)) as [st' [m| |]]; [|done|done].
  cbn [snd] in H. destruct H as [_ H]. injection E as <- <-.
  unfold all_ops. set (n := (match last (l_version L) with Some v => v + 1 | None => 0 end)%N).
  rewrite <- events_changes.
  set (chg := fun v => changes (filter (LogSpec.in_range s e) (ops_between L 0 v)) (filter (LogSpec.in_range s e) (patch_at L v))) in *.
  assert (HP : map_to_list m ≡ₚ filter (fun x => snd x <> []) (map (fun v => (v, chg v)) (range 0 n))).
  { apply NoDup_Permutation.
    - apply NoDup_map_to_list.
    - apply NoDup_filter. unfold range. rewrite map_map. apply NoDup_ListNoDup. apply FinFun.Injective_map_NoDup; [|apply seq_NoDup].
      intros i i' Ei. injection Ei as Ei _. lia.
    - intros [v ps]. rewrite elem_of_map_to_list, elem_of_list_filter, H. fold (chg v). split.
      + intros Hv. assert (ps = chg v ∧ chg v <> []) as [-> Hne].
        { destruct (chg v) eqn:Ec; [done|]. injection Hv as <-. done. }
        split; [done|]. apply elem_of_list_fmap. exists v. split; [done|].
        assert (Hsome : is_Some (l_patches L !! v)).
        { unfold chg, patch_at in Hne. destruct (l_patches L !! v); [by eexists|]. done. }
        apply range_elem. destruct HC as (k & Hk & Hp & _). apply Hp in Hsome. subst n.
        rewrite Hk. rewrite seq_S, map_app. cbn [map]. rewrite last_snoc. lia.
      + intros [Hne Hin]. apply elem_of_list_fmap in Hin as (v' & [= <- ->] & _). cbn in Hne. by destruct (chg v). }
  rewrite (HO (map_to_list m)), HP.
  assert (G : forall vs, concat (map (fun x => events_of path thr (snd x)) (filter (fun x => snd x <> []) (map (fun v => (v, chg v)) vs)))
    = map op_ts (filter (over thr) (concat (map (fun v => filter (at_p path) (chg v)) vs)))).
  { induction vs as [|v vs IH]; [done|]. cbn [map concat]. rewrite filter_cons, filter_app, map_app, <- IH, <- events_of_filter.
    case_decide as Hc; [done|]. cbn [snd] in Hc. by rewrite Hc. }
  by rewrite G.
Qed.

(** ** The experiment's log *)
Lemma staged_consistent ops l L : l_snapshots L = {[ 0%N := VObj l ]} -> staged ops L -> consistent L.
Proof.
  intros HS [(EV & EP & _)|(EV & _ & ps & EP & _)].
  - exists 0%nat. split; [done|]. rewrite EP, HS. split; [|split].
    + intros v. rewrite lookup_empty. split; [by intros [? ?]|lia].
    + intros v [x Hx]. apply lookup_singleton_Some in Hx. lia.
    + rewrite lookup_singleton. by eexists.
  - exists 1%nat. split; [done|]. rewrite EP, HS. split; [|split].
    + intros v. split.
      * intros [x Hx]. apply lookup_singleton_Some in Hx. lia.
      * intros Hv. assert (v = 1%N) as -> by lia. rewrite lookup_singleton. by eexists.
    + intros v [x Hx]. apply lookup_singleton_Some in Hx. lia.
    + rewrite lookup_singleton. by eexists.
Qed.
Lemma no_clash l : (forall p, p ∈ l -> exists x, payload (op_value p) x) -> ~ clash l.
Proof.
  intros HP (pre & p & q & post & -> & _ & HU).
  destruct (HP q) as [x Hx]; [apply elem_of_app; right; apply elem_of_list_here|].
  inversion Hx; inversion HU; subst; congruence.
Qed.
(** Within one path, an operation is a change if it differs from the one before it. *)
Lemma changes_one path l : (forall p, p ∈ l -> op_path p = path) -> forall seen, (forall p, p ∈ seen -> op_path p = path) ->
  forall p, p ∈ changes seen l <-> exists a b, l = a ++ p :: b ∧
    match last (seen ++ a) with Some q => ~ go_equal (op_value q) (op_value p) | None => True end.
Proof.
  induction l as [|p0 l IH]; intros Hl seen Hs p.
  - cbn. split; [by intros ?%elem_of_nil|]. intros (a & b & E & _). by destruct a.
  - cbn [changes]. assert (Hp0 : op_path p0 = path) by (apply Hl, elem_of_list_here).
    assert (Hlast : last_on (op_path p0) seen = last seen).
    { unfold last_on. rewrite Hp0. by rewrite (filter_true (at_p path)). }
    rewrite elem_of_app, (IH (fun q Hq => Hl q (elem_of_list_further _ _ _ Hq)) (seen ++ [p0])).
    2: { intros q Hq. apply elem_of_app in Hq as [Hq|Hq]; [by apply Hs|]. by apply elem_of_list_singleton in Hq as ->. }
    split.
    + intros [Hin|(a & b & -> & Hc)].
      * case_decide as Hc; [|by apply elem_of_nil in Hin]. apply elem_of_list_singleton in Hin as ->.
        exists [], l. split; [done|]. rewrite app_nil_r. unfold changed in Hc. by rewrite Hlast in Hc.
      * exists (p0 :: a), b. split; [done|]. rewrite <- app_assoc in Hc. exact Hc.
    + intros (a & b & E & Hc). destruct a as [|p1 a].
      * cbn in E. injection E as <- <-. left. rewrite app_nil_r in Hc. rewrite decide_True; [apply elem_of_list_here|].
        unfold changed. by rewrite Hlast.
      * cbn in E. injection E as <- ->. right. exists a, b. split; [done|]. rewrite <- app_assoc. exact Hc.
Qed.
Lemma changes_sublist l : forall seen, changes seen l `sublist_of` l.
Proof. intros seen. rewrite <- changes_among_all. apply changes_among_sublist. Qed.
Lemma elem_sublist {A} (l l' : list A) x : l `sublist_of` l' -> x ∈ l -> x ∈ l'.
Proof. induction 1 as [|y l l' H IH|y l l' H IH]; intros Hx; [done|..]; set_solver. Qed.
Lemma sorted_sublist {A} (R : A -> A -> Prop) l l' : l `sublist_of` l' -> StronglySorted R l' -> StronglySorted R l.
Proof.
  induction 1 as [|x l l' H IH|x l l' H IH]; intros HS; [done|..]; inversion HS as [|? ? HS' HF]; subst; [|by apply IH].
  constructor; [by apply IH|]. rewrite List.Forall_forall in *. intros y Hy. apply HF. apply elem_of_list_In, (elem_sublist _ _ _ H). by apply elem_of_list_In.
Qed.
Lemma filter_sublist {A} (P : A -> Prop) `{!forall x, Decision (P x)} (l : list A) : filter P l `sublist_of` l.
Proof.
  induction l as [|x l IH]; [done|]. rewrite filter_cons. case_decide; [by apply sublist_skip|by apply sublist_cons].
Qed.

Lemma sorted_around {A} (R : A -> A -> Prop) a x b : StronglySorted R (a ++ x :: b) ->
  (forall y, y ∈ a -> R y x) ∧ (forall y, y ∈ b -> R x y).
Proof.
  induction a as [|y a IH]; cbn; intros HS; inversion HS as [|? ? HS' HF]; subst; rewrite List.Forall_forall in HF.
  - split; [by intros y ?%elem_of_nil|]. intros y Hy. apply HF. by apply elem_of_list_In.
  - destruct (IH HS') as [H1 H2]. split; [|done]. intros z Hz. apply elem_of_cons in Hz as [->|Hz]; [|by apply H1].
    apply HF, elem_of_list_In, elem_of_app. right. apply elem_of_list_here.
Qed.
Lemma sorted_strict l : StronglySorted (fun p q => op_ts p <= op_ts q) l -> NoDup (map op_ts l) ->
  StronglySorted (fun p q => op_ts p < op_ts q) l.
Proof.
  induction l as [|p l IH]; intros HS HN; [constructor|]. inversion HS as [|? ? HS' HF]; subst. cbn [map] in HN. apply NoDup_cons in HN as [HN1 HN2].
  constructor; [by apply IH|]. rewrite List.Forall_forall in *. intros q Hq. specialize (HF q Hq).
  assert (op_ts p <> op_ts q); [|lia]. intros E. apply HN1. rewrite E. apply elem_of_list_fmap. exists q. split; [done|]. by apply elem_of_list_In.
Qed.
Lemma sorted_map {A B} (f : A -> B) (R : A -> A -> Prop) (S : B -> B -> Prop) l : (forall x y, R x y -> S (f x) (f y)) ->
  StronglySorted R l -> StronglySorted S (map f l).
Proof.
  intros HR. induction 1 as [|x l HS IH HF]; cbn; constructor; [done|]. rewrite List.Forall_forall in *. intros y Hy.
  apply in_map_iff in Hy as (z & <- & Hz). by apply HR, HF.
Qed.
Lemma times_nodup us path : distinct_times us path -> NoDup (map tp_ts (filter (fun u => tp_path u = path) us)).
Proof.
  induction us as [|u us IH]; intros HD; [constructor|]. rewrite filter_cons.
  assert (HN : NoDup (map tp_ts (filter (fun u => tp_path u = path) us))).
  { apply IH. intros a x b y c E. by apply (HD (u :: a) x b y c); cbn; rewrite E. }
  case_decide as Hp; [|done]. cbn [map]. apply NoDup_cons. split; [|done]. intros Hin.
  apply elem_of_list_fmap in Hin as (x & E & Hx). apply elem_of_list_filter in Hx as [Hxp Hx].
  apply elem_of_list_split in Hx as (b & c & ->). by apply (HD [] u b x c).
Qed.
Lemma go_json v w : scalar v -> scalar w -> v ≠ JNull -> go_equal (any_of_json v) (any_of_json w) <-> same_json v w.
Proof.
  intros Hv Hw Hn. assert (Hno : forall x, scalar x -> (forall l, x ≠ JArr l) ∧ (forall m, x ≠ JObj m)).
  { intros x Hx. split; intros y ->; apply Hx; [right|left]; by eexists. }
  destruct (Hno v Hv) as [Hv1 Hv2], (Hno w Hw) as [Hw1 Hw2]. clear Hno. split.
  - destruct v as [|b|f|x|l|m]; [done|..|by destruct (Hv1 l)|by destruct (Hv2 m)];
      destruct w as [|b'|f'|x'|l'|m']; cbn; intros H; inversion H; subst; by constructor.
  - intros H. inversion H; subst; cbn; [done|by constructor|by constructor|by constructor|by destruct (Hv1 l)|by destruct (Hv2 m)].
Qed.

Lemma all_staged ps L : l_version L = [0%N; 1%N] -> l_patches L = {[ 1%N := ps ]} -> all_ops L = ps.
Proof.
  intros EV EP. unfold all_ops. rewrite EV. cbn [last]. unfold ops_between. change (N.to_nat (1 + 1 - 0)) with 2%nat. cbn [seq map concat].
  unfold patch_at. rewrite EP. rewrite lookup_singleton_ne by done. change (0 + N.of_nat 1)%N with 1%N. rewrite lookup_singleton.
  cbn [default from_option id]. by rewrite app_nil_r.
Qed.
Lemma all_fresh L : l_version L = [0%N] -> l_patches L = ∅ -> all_ops L = [].
Proof.
  intros EV EP. unfold all_ops. rewrite EV. cbn [last]. unfold ops_between. change (N.to_nat (0 + 1 - 0)) with 1%nat. cbn [seq map concat].
  unfold patch_at. rewrite EP, lookup_empty. done.
Qed.
Lemma track_total h L s e : consistent L -> s <= e -> (forall p, p ∈ all_ops L -> exists x, payload (op_value p) x) ->
  exists m, temporal_track s e (h, L) = ((h, L), Ok m).
Proof.
  intros HC Hse HP. destruct (temporal_track_spec s e h L HC) as [E H]. destruct (temporal_track s e (h, L)) as [st r]. cbn [fst snd] in *. subst st.
  destruct r as [m| |]; [by exists m|done|]. exfalso. destruct H as [H|H]; [lia|]. revert H. apply no_clash.
  intros p Hp. apply elem_of_list_filter in Hp as [_ Hp]. by apply HP.
Qed.

Section events.
Context (m : list (string * json)) (us : list tpatch).
Context (Hus : forall u, u ∈ us -> exists l, updates m u l).
Notation ops := (map operation_of us).
Lemma ops_payload p : p ∈ ops -> exists x, payload (op_value p) x.
Proof.
  intros Hp. apply elem_of_list_fmap in Hp as (u & -> & Hu). destruct (Hus u Hu) as [l Hl].
  destruct (update_payload m _ _ Hl) as (x & Hx & _). by exists x.
Qed.
Lemma update_scalar u : u ∈ us -> scalar (tp_value u) ∧ tp_value u ≠ JNull.
Proof. intros Hu. destruct (Hus u Hu) as (l & _ & _ & Hs & Hn & _). done. Qed.
Lemma ops_nodup ps path s e : distinct_times us path -> ps ≡ₚ ops -> NoDup (map op_ts (filter (on_path path s e) ps)).
Proof.
  intros HD HP. replace (filter (on_path path s e) ps) with (filter (LogSpec.in_range s e) (filter (at_p path) ps)).
  2: { rewrite list_filter_filter. apply list_filter_iff. intros p. unfold on_path, LogSpec.in_range. tauto. }
  assert (HS : forall l l' : list operation, l `sublist_of` l' -> NoDup (map op_ts l') -> NoDup (map op_ts l)).
  { induction 1 as [|x l l' H IH|x l l' H IH]; cbn [map]; intros HN; [done|..]; apply NoDup_cons in HN as [HN1 HN2]; [|by apply IH].
    apply NoDup_cons. split; [|by apply IH]. intros Hx. apply HN1. apply elem_of_list_fmap in Hx as (y & -> & Hy).
    apply elem_of_list_fmap. exists y. split; [done|]. by eapply elem_sublist. }
  eapply HS; [apply filter_sublist|]. clear HS.
  assert (HX : map op_ts (filter (at_p path) ps) ≡ₚ map tp_ts (filter (fun u => tp_path u = path) us)).
  { rewrite HP. clear. induction us as [|u us' IH]; [done|]. cbn [map]. rewrite !filter_cons.
    change (op_path (operation_of u)) with (tp_path u). case_decide; [|done]. cbn [map]. by rewrite IH. }
  rewrite HX. by apply times_nodup.
Qed.
Lemma events_iff ps path s e thr : distinct_times us path -> ps ≡ₚ ops -> StronglySorted (fun p q => op_ts p <= op_ts q) ps ->
  let zs := map op_ts (filter (over thr) (changes [] (filter (on_path path s e) ps))) in
  StronglySorted Z.lt zs ∧ forall z, z ∈ zs <-> event us path s e thr z.
Proof.
  intros HD HP HS zs. pose proof (ops_nodup ps path s e HD HP) as HN. set (F := filter (on_path path s e) ps) in *.
  assert (HSF : StronglySorted (fun p q => op_ts p < op_ts q) F).
  { apply sorted_strict; [|done]. eapply sorted_sublist; [apply filter_sublist|done]. }
  assert (HF : forall p, p ∈ F <-> exists u, u ∈ us ∧ p = operation_of u ∧ tp_path u = path ∧ s <= tp_ts u <= e).
  { intros p. unfold F. rewrite elem_of_list_filter, HP. unfold on_path. split.
    - intros [Hp Hin]. apply elem_of_list_fmap in Hin as (u & -> & Hu). exists u. tauto.
    - intros (u & Hu & -> & Hp). split; [done|]. apply elem_of_list_fmap. by exists u. }
  split.
  { eapply sorted_map; [|eapply sorted_sublist; [|exact HSF]]; [done|]. etrans; [apply filter_sublist|apply changes_sublist]. }
  assert (HC : forall p, p ∈ changes [] F <-> exists a b, F = a ++ p :: b ∧
    match last a with Some q => ~ go_equal (op_value q) (op_value p) | None => True end).
  { intros p. apply (changes_one path); [|by intros q ?%elem_of_nil]. intros q Hq. apply HF in Hq as (u & _ & -> & Hu & _). exact Hu. }
  intros z. unfold zs. split.
  - intros Hz. apply elem_of_list_fmap in Hz as (p & -> & Hp). apply elem_of_list_filter in Hp as [Hov Hp]. apply HC in Hp as (a & b & EF & Hl).
    assert (Hp : p ∈ F) by (rewrite EF; apply elem_of_app; right; apply elem_of_list_here).
    pose proof Hp as Hp'. apply HF in Hp' as (u & Hu & -> & Hpath & Hrange). unfold over, operation_of in Hov. cbn [op_value] in Hov.
    destruct (tp_value u) as [|bb|f|x|xs|mm] eqn:Ev; try done. cbn in Hov. exists u, f. split; [done|]. split; [done|]. split; [done|]. split; [done|].
    split; [done|]. split; [done|]. intros u' Hu' Hpath' Hrange' Hbetween Hsame.
    change (op_ts (operation_of u)) with (tp_ts u) in *.
    assert (Hin : operation_of u' ∈ F) by (apply HF; exists u'; split; [done|]; split; [done|]; split; [done|lia]).
    pose proof HSF as HS1. rewrite EF in HS1. destruct (sorted_around _ _ _ _ HS1) as [Hbefore Hafter].
    rewrite EF in Hin. apply elem_of_app in Hin as [Hin|Hin].
    2: { exfalso. apply elem_of_cons in Hin as [E|Hin].
         - apply (f_equal op_ts) in E. cbn in E. lia.
         - apply Hafter in Hin. cbn in Hin. lia. }
    destruct (last a) as [q|] eqn:El; [|apply last_None in El as ->; by apply elem_of_nil in Hin].
    apply last_Some in El as [a' ->].
    assert (Hq : q ∈ F) by (rewrite EF; apply elem_of_app; left; apply elem_of_app; right; apply elem_of_list_here).
    pose proof Hq as Hq'. apply HF in Hq' as (uq & Huq & -> & Hpq & Hrq).
    assert (Hlt : tp_ts uq < tp_ts u) by (apply (Hbefore (operation_of uq)); apply elem_of_app; right; apply elem_of_list_here).
    assert (Eq : operation_of u' = operation_of uq).
    { apply elem_of_app in Hin as [Hin|Hin]; [|by apply elem_of_list_singleton in Hin].
      exfalso. rewrite <- !app_assoc in HS1. cbn [app] in HS1. destruct (sorted_around _ _ _ _ HS1) as [Hb2 _].
      apply Hb2 in Hin. cbn in Hin. apply (Hbetween uq Huq Hpq). lia. }
    apply Hl. rewrite <- Eq. unfold operation_of. cbn [op_value]. rewrite Ev. rewrite <- Ev.
    destruct (update_scalar u Hu) as [? ?], (update_scalar u' Hu') as [? ?]. by apply go_json.
  - intros (u & f & Hu & Hpath & <- & Hrange & Ev & Hf & Hprev). apply elem_of_list_fmap. exists (operation_of u). split; [done|].
    apply elem_of_list_filter. split; [unfold over, operation_of; cbn [op_value]; by rewrite Ev|].
    apply HC. assert (Hin : operation_of u ∈ F) by (apply HF; by exists u).
    apply elem_of_list_split in Hin as (a & b & EF). exists a, b. split; [done|]. destruct (last a) as [q|] eqn:El; [|done].
    apply last_Some in El as [a' ->]. pose proof HSF as HS1. rewrite EF in HS1. destruct (sorted_around _ _ _ _ HS1) as [Hbefore Hafter].
    assert (Hq : q ∈ F) by (rewrite EF; apply elem_of_app; left; apply elem_of_app; right; apply elem_of_list_here).
    pose proof Hq as Hq'. apply HF in Hq' as (uq & Huq & -> & Hpq & Hrq).
    assert (Hlt : tp_ts uq < tp_ts u) by (apply (Hbefore (operation_of uq)); apply elem_of_app; right; apply elem_of_list_here).
    intros Hgo. apply (Hprev uq Huq Hpq); [lia| |].
    + intros u'' Hu'' Hp'' Hb. assert (Hin : operation_of u'' ∈ F) by (apply HF; exists u''; split; [done|]; split; [done|]; split; [done|lia]).
      rewrite EF in Hin. apply elem_of_app in Hin as [Hin|Hin].
      * rewrite <- app_assoc in HS1. cbn [app] in HS1. destruct (sorted_around _ _ _ _ HS1) as [Hb2 _].
        apply elem_of_app in Hin as [Hin|Hin]; [apply Hb2 in Hin; cbn in Hin; lia|].
        apply elem_of_list_singleton in Hin. apply (f_equal op_ts) in Hin. cbn in Hin. lia.
      * apply elem_of_cons in Hin as [E|Hin]; [apply (f_equal op_ts) in E; cbn in E; lia|]. apply Hafter in Hin. cbn in Hin. lia.
    + destruct (update_scalar u Hu) as [? ?], (update_scalar uq Huq) as [? ?]. by apply go_json.
Qed.
End events.

Lemma search_fresh T file us h h' L ord path s e thr : (forall x, ord x ≡ₚ x) -> s <= e ->
  create_logument T file us h = (h', Ok L) ->
  temporal_track s e (h', L) = ((h', L), Ok ∅) ∧ find_events ord path s e thr (h', L) = ((h', L), Ok []).
Proof.
  intros HO Hse E. unfold create_logument in E. destruct (snd (from_json (transform file))); [|done|done].
  destruct (alloc_tree h a) as [h1 v]. destruct (new_root _ _ _ _ _ _ E) as (v' & _ & _ & _ & EP).
  assert (ET : temporal_track s e (h', L) = ((h', L), Ok ∅)).
  { unfold temporal_track. rewrite (proj2 (Z.ltb_ge e s)) by lia. rewrite EP. unfold sorted_keys. by rewrite map_to_list_empty. }
  split; [done|]. unfold find_events. rewrite ET, map_to_list_empty. pose proof (HO []) as HN. symmetry in HN. apply Permutation_nil in HN. by rewrite HN.
Qed.
Lemma search_staged m us ord path s e thr h L l : (forall u, u ∈ us -> exists l, updates m u l) -> (forall x, ord x ≡ₚ x) -> s <= e ->
  l_snapshots L = {[ 0%N := VObj l ]} -> staged (map operation_of us) L -> l_version L = [0%N; 1%N] -> distinct_times us path ->
  exists zs, find_events ord path s e thr (h, L) = ((h, L), Ok zs) ∧ StronglySorted Z.lt zs ∧
    forall z, z ∈ zs <-> event us path s e thr z.
Proof.
  intros Hus HO Hse HS HG EV HD. pose proof (staged_consistent _ _ _ HS HG) as HC.
  destruct HG as [(EV' & _)|(_ & _ & ps & EP & HP & Hsort)]; [congruence|].
  pose proof (all_staged _ _ EV EP) as Eall.
  destruct (track_total h L s e HC Hse) as [mm Em].
  { rewrite Eall. intros p Hp. rewrite HP in Hp. by apply (ops_payload m us Hus). }
  destruct (temporal_track_spec s e h L HC) as [_ Hm]. rewrite Em in Hm. cbn [snd] in Hm. destruct Hm as [_ Hm].
  set (c := changes [] (filter (LogSpec.in_range s e) ps)).
  assert (Emm : map_to_list mm = match c with [] => [] | _ => [(1%N, c)] end).
  { assert (EX : mm = match c with [] => ∅ | _ => {[ 1%N := c ]} end).
    { apply map_eq. intros v. rewrite Hm. destruct (decide (v = 1%N)) as [->|Hv].
      - replace (patch_at L 1) with ps by (unfold patch_at; by rewrite EP, lookup_singleton).
        replace (ops_between L 0 1) with (@nil operation).
        + change (filter (LogSpec.in_range s e) []) with (@nil operation). fold c. destruct c; [by rewrite lookup_empty|by rewrite lookup_singleton].
        + unfold ops_between. change (N.to_nat (1 - 0)) with 1%nat. cbn [seq map concat]. unfold patch_at. by rewrite EP, lookup_singleton_ne.
      - replace (patch_at L v) with (@nil operation) by (unfold patch_at; by rewrite EP, lookup_singleton_ne).
        cbn. destruct c; [by rewrite lookup_empty|by rewrite lookup_singleton_ne]. }
    rewrite EX. destruct c; [apply map_to_list_empty|apply map_to_list_singleton]. }
  eexists. split; [unfold find_events; rewrite Em; reflexivity|].
  assert (Ez : concat (map (fun x => events_of path thr (snd x)) (ord (map_to_list mm)))
    = map op_ts (filter (over thr) (changes [] (filter (on_path path s e) ps)))).
  { rewrite <- filter_on, <- (changes_filter path _ []). fold c. rewrite <- events_of_filter, Emm. destruct c as [|p c'].
    - pose proof (HO []) as HN. symmetry in HN. apply Permutation_nil in HN. by rewrite HN.
    - pose proof (HO [(1%N, p :: c')]) as HN. symmetry in HN. apply Permutation_singleton_l in HN. rewrite <- HN. cbn [map concat snd]. by rewrite app_nil_r. }
  rewrite Ez. by apply (events_iff m us Hus).
Qed.
Lemma search_run T file m us h qs ord path s e thr :
  transform file = JObj m -> named path_name (JObj m) -> json_encodable (JObj m) = true -> jnull_free (JObj m) = true ->
  (forall u, u ∈ us -> exists l, updates m u l) ->
  Forall (fun q => oracle_ok (fst q)) qs -> StronglySorted Z.le (map snd qs) -> qs <> [] ->
  (forall x, ord x ≡ₚ x) -> s <= e -> distinct_times us path ->
  exists h' L st ds zs, create_logument T file us h = (h', Ok L) ∧ snapshot_run qs (h', L) = (st, Ok ds) ∧
    find_events ord path s e thr st = (st, Ok zs) ∧ StronglySorted Z.lt zs ∧
    forall z, z ∈ zs <-> event us path s e thr z.
Proof.
  intros Ef Hnamed He Hnull Hus HO HS Hqs Hord Hse HD. destruct (create_ok m us Hnamed Hnull Hus T file h Ef He) as (h' & L & l & E & HQ).
  assert (HS' : exists t0, StronglySorted Z.le (t0 :: map snd qs)).
  { destruct qs as [|[o t] qs]; [done|]. exists t. cbn [map snd] in *. inversion HS; subst. constructor; [done|]. constructor; [lia|done]. }
  destruct HS' as [t0 HS']. destruct (run_ok _ _ _ _ _ _ _ (HQ t0) HO HS') as (st & ds & Er & HF & (t & d' & HQ') & HV).
  destruct st as [h2 L2].
  destruct (search_staged m us ord path s e thr h2 L2 l Hus Hord Hse (qu_snap _ _ _ _ _ _ HQ') (qu_stage _ _ _ _ _ _ HQ') (HV (or_introl Hqs)) HD) as (zs & Ez & H1 & H2).
  by exists h', L, (h2, L2), ds, zs.
Qed.
