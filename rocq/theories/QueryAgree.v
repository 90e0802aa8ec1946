(** The log and the temporal JSON document of an experiment agree. *)
From Verif Require Import Base BaseSpec BaseSpecLemmas F64 Tson TsonInd TsonSpec F64Lemmas BaseLemmas TsonLemmas Heap HeapSpec Patch PatchSpec PatchLemmas
  Serial Logument LogSpec ReplaySpec Json Tjson TjsonSpec TjsonLemmas Initial InitialSpec InitialLemmas Query QuerySpec QueryLemmas QueryTrack.
From Verif Require DiffLemmas.
From Coq Require Import Lia.

Section agree.
Context (file : json) (m : list (string * json)) (us : list tpatch).
Context (Hfile : transform file = JObj m) (Hnamed : named both_name (JObj m)).
Context (Henc : json_encodable (JObj m) = true) (Hnull : jnull_free (JObj m) = true).
Context (Hus : forall u, u ∈ us -> 0 <= tp_ts u < 2 ^ 63 ∧ exists l, updates m u l).

Lemma named_simple : named simple_name (JObj m).
Proof. eapply named_impl; [|exact Hnamed]. by intros k [? _]. Qed.
Lemma named_path : named path_name (JObj m).
Proof. eapply named_impl; [|exact Hnamed]. by intros k [_ ?]. Qed.
Lemma below_place l : forall j v, below l j = Some v -> place j l v.
Proof.
  induction l as [|k l IH]; intros j v Hb; [cbn in Hb; injection Hb as ->; constructor|].
  cbn [below] in Hb. destruct j as [| | | | |m']; try done. destruct (alookup k m') as [c|] eqn:Ek; [|done].
  apply alookup_Some_in in Ek. eapply pl_member; [exact Ek|]. by apply IH.
Qed.
Lemma below_route l v : below l (JObj m) = Some v -> scalar v -> route (String.concat "." l) l.
Proof.
  intros Hb Hs. apply route_concat; [by eapply below_ne|].
  destruct (place_names _ _ _ named_simple (below_place _ _ _ Hb)) as [H _]. done.
Qed.
Lemma sets_path u l v : u ∈ us -> below l (JObj m) = Some v -> scalar v -> sets u l <-> tp_path u = String.concat "." l.
Proof.
  intros Hu Hb Hs. destruct (Hus u Hu) as (_ & l' & Ho & Ep & _ & _ & v' & Hb' & Hs'). split.
  - intros [_ Hr]. rewrite Ep in Hr. rewrite Ep. by rewrite (route_fun _ _ _ Hr (below_route _ _ Hb' Hs')).
  - intros E. split; [done|]. rewrite E. by eapply below_route.
Qed.
Lemma updates_simple u : u ∈ us -> 0 <= tp_ts u < 2 ^ 63 ∧ exists l v, place (JObj m) l v ∧ scalar v ∧ sets u l.
Proof.
  intros Hu. pose proof Hu as Hu'. apply Hus in Hu' as (Ht & l & Ho & Ep & _ & _ & v & Hb & Hs). split; [done|].
  exists l, v. split; [by apply below_place|]. split; [done|]. by eapply sets_path.
Qed.
(** At distinct times something is always in force. *)
Lemma in_force l v t : below l (JObj m) = Some v -> scalar v -> distinct_times us (String.concat "." l) ->
  exists w z, shown us l v t w ∧ stands us l v t w z ∧ scalar w ∧ w ≠ JNull.
Proof.
  intros Hb Hs HD.
  assert (Hmax : (forall u, u ∈ us -> tp_path u = String.concat "." l -> t < tp_ts u) ∨
    exists u, u ∈ us ∧ tp_path u = String.concat "." l ∧ tp_ts u <= t ∧
      forall u', u' ∈ us -> tp_path u' = String.concat "." l -> tp_ts u' <= t -> u' = u ∨ tp_ts u' < tp_ts u).
  { revert HD. generalize (String.concat "." l). clear. intros path. induction us as [|u us' IH]; intros HD; [left; by intros u ?%elem_of_nil|].
    assert (HD' : distinct_times us' path) by (intros a x b y c E; by apply (HD (u :: a) x b y c); cbn; rewrite E).
    destruct (decide (tp_path u = path ∧ tp_ts u <= t)) as [[Hp Ht]|Hn].
    - right. destruct (IH HD') as [Hnone|(x & Hx & Hxp & Hxt & Hmx)].
      + exists u. split; [apply elem_of_list_here|]. split; [done|]. split; [done|]. intros u' Hu' Hp' Ht'. apply elem_of_cons in Hu' as [->|Hu']; [by left|].
        specialize (Hnone u' Hu' Hp'). lia.
      + assert (tp_ts u <> tp_ts x).
        { apply elem_of_list_split in Hx as (b & c & ->). by apply (HD [] u b x c). }
        destruct (decide (tp_ts u < tp_ts x)) as [Hlt|Hge].
        * exists x. split; [by apply elem_of_list_further|]. split; [done|]. split; [done|].
          intros u' Hu' Hp' Ht'. apply elem_of_cons in Hu' as [->|Hu']; [by right|by apply Hmx].
        * exists u. split; [apply elem_of_list_here|]. split; [done|]. split; [done|].
          intros u' Hu' Hp' Ht'. apply elem_of_cons in Hu' as [->|Hu']; [by left|]. right. destruct (Hmx u' Hu' Hp' Ht') as [->|?]; lia.
    - destruct (IH HD') as [Hnone|(x & Hx & Hxp & Hxt & Hmx)].
      + left. intros u' Hu' Hp'. apply elem_of_cons in Hu' as [->|Hu']; [|by apply Hnone]. destruct (decide (t < tp_ts u)); [done|].
        exfalso. apply Hn. split; [done|lia].
      + right. exists x. split; [by apply elem_of_list_further|]. split; [done|]. split; [done|].
        intros u' Hu' Hp' Ht'. apply elem_of_cons in Hu' as [->|Hu']; [by destruct Hn|by apply Hmx]. }
  destruct Hmax as [Hnone|(u & Hu & Hp & Ht & Hmx)].
  - exists v, (-1). split; [|split; [|split; [done|]]].
    + apply sh_initial. intros u Hu Hset. apply (sets_path u l v) in Hset; try done. by apply Hnone.
    + by constructor.
    + intros ->. pose proof (below_null _ _ _ Hnull Hb). done.
  - exists (tp_value u), (tp_ts u). split; [|split; [|]].
    + apply sh_update; [done|by eapply sets_path|done|]. intros u' Hu' Hset Ht'. apply (sets_path u' l v) in Hset; try done. by apply Hmx.
    + by apply std_update.
    + destruct (Hus u Hu) as (_ & l' & _ & _ & H1 & H2 & _). done.
Qed.
(** Snapshots at one time show the same values. *)
Lemma agree_at srt ord now t d d0 l v : sorting tp_ts srt -> (forall x, Permutation (ord x) x) -> 0 <= now < 2 ^ 63 -> 0 <= t <= now ->
  below l (JObj m) = Some v -> scalar v -> (2 <= length l)%nat -> distinct_times us (String.concat "." l) ->
  (forall u, u ∈ us -> tp_path u = String.concat "." l -> 1 <= tp_ts u) ->
  state_at m d0 us t d ->
  exists x z w, at_path d (keys l) = Some (TLeaf x z) ∧
    below l (JObj (tj_snapshot (from_patches srt ord now (initial_patches file ++ us)) t)) = Some w ∧ alike w (json_of_prim x).
Proof.
  intros Hsrt Hord Hnow Ht Hb Hs Hlen HD Hpos [HA _]. destruct (in_force l v t Hb Hs HD) as (w & z & Hsh & Hst & Hw1 & Hw2).
  destruct (HA l v w z Hb Hs Hst) as (x & Hx & Ex).
  destruct (shown_file srt ord now file m us l v t w Hfile named_simple Henc updates_simple Hsrt Hord Hnow (below_place _ _ _ Hb) Hs Hlen Ht) as (w' & Hb' & Ha); try done.
  - intros u Hu Hset. apply Hpos; [done|]. by apply (sets_path u l v).
  - intros c ->. apply Hw1. left. by eexists.
  - exists x, z, w'. rewrite Ex. done.
Qed.
Lemma alike_num x f : alike x (JNum f) -> x = JNum f ∨ exists g, x = JNum g ∧ f64_eq g f = true.
Proof. intros [->|H]; [by left|]. inversion H; subst. right. by eexists. Qed.
Lemma distinct_same path u u' : distinct_times us path -> u ∈ us -> u' ∈ us -> tp_path u = path -> tp_path u' = path -> tp_ts u = tp_ts u' -> u = u'.
Proof.
  clear. intros HD Hu Hu' Hp Hp' Et. apply elem_of_list_split in Hu as (a & b & E). rewrite E in Hu'.
  apply elem_of_app in Hu' as [H|H]; [|apply elem_of_cons in H as [H|H]; [done|]].
  - apply elem_of_list_split in H as (a1 & a2 & E'). exfalso. apply (HD a1 u' a2 u b); [|done|done|done].
    rewrite E, E'. rewrite <- app_assoc. done.
  - apply elem_of_list_split in H as (b1 & b2 & ->). exfalso. by apply (HD a u b1 u' b2).
Qed.
(** If every update changes the value, the events are the updates above the threshold. *)
Lemma event_changing l v path s e thr z : path = String.concat "." l -> distinct_times us path -> changing us l v ->
  event us path s e thr z <-> s <= z <= e ∧ exists u f, u ∈ us ∧ tp_path u = path ∧ tp_ts u = z ∧ tp_value u = JNum f ∧ SFltb thr f = true.
Proof.
  intros -> HD HC. split.
  - intros (u & f & Hu & Hp & Ez & Hw & Ev & Hf & _). split; [done|]. by exists u, f.
  - intros (Hw & u & f & Hu & Hp & Ez & Ev & Hf). exists u, f. do 6 (split; [done|]). intros u' Hu' Hp' Ht' Hno Hsame.
    apply (HC u (tp_value u') (tp_ts u') Hu Hp); [|by right].
    apply std_update; [done|done|lia|]. intros u'' Hu'' Hp'' Ht''. destruct (decide (tp_ts u' < tp_ts u'')) as [Hlt|Hge].
    + exfalso. apply (Hno u'' Hu'' Hp''). lia.
    + destruct (decide (tp_ts u'' < tp_ts u')) as [?|Hge']; [by right|]. left.
      apply (distinct_same (String.concat "." l)); try done. lia.
Qed.
Lemma over_alike thr x f : alike x (JNum f) -> over_threshold thr x = SFltb thr f.
Proof.
  intros [->|(g & -> & Hg)]%alike_num; [done|]. cbn. destruct (f64_eq_true _ _ Hg) as [->|(b & b' & -> & ->)]; [done|]. by destruct thr, b, b'.
Qed.
Lemma alike_both x w f : alike x w -> alike x (JNum f) -> alike w (JNum f).
Proof.
  intros H1 H2. apply alike_num in H2 as [->|(g & -> & Hg)].
  - destruct H1 as [<-|H]; [by left|]. inversion H; subst. right. constructor. by apply DiffLemmas.f64_eq_sym.
  - destruct H1 as [<-|H]; [by right; constructor|]. inversion H; subst. right. constructor.
    eapply DiffLemmas.f64_eq_trans; [|exact Hg]. by apply DiffLemmas.f64_eq_sym.
Qed.
(** In the window the temporal JSON document reports the same events. *)
Lemma agree_events srt ord tsrt now path l v s e thr : sorting tp_ts srt -> (forall x, Permutation (ord x) x) -> by_start tsrt ->
  below l (JObj m) = Some v -> scalar v -> (2 <= length l)%nat -> path = String.concat "." l -> distinct_times us path -> changing us l v ->
  (forall u, u ∈ us -> tp_path u = path -> 1 <= tp_ts u) -> 1 <= s -> s <= e <= now -> now < 2 ^ 63 ->
  exists xs, tj_events tsrt (from_patches srt ord now (initial_patches file ++ us)) path s e (over_threshold thr) = Ok xs ∧
  forall z, s <= z -> z ∈ xs <-> event us path s e thr z.
Proof.
  intros Hsrt Hord Hts Hb Hs Hlen -> HD HC Hpos H1 Hse Hnow.
  assert (Hne : l <> []) by (intros ->; cbn in Hlen; lia).
  pose proof (below_place _ _ _ Hb) as Hpl.
  destruct (place_names _ _ _ named_simple Hpl) as [Hsn _]. destruct (names_concat l Hne Hsn) as [_ Hq].
  assert (Hpos' : forall u, u ∈ us -> sets u l -> 1 <= tp_ts u).
  { intros u Hu Hset. apply Hpos; [done|]. by apply (sets_path u l v). }
  assert (Ei : initial_patches file = gen_initial "" (JObj m)) by (unfold initial_patches; by rewrite Hfile).
  rewrite Ei. set (ps := gen_initial "" (JObj m) ++ us).
  pose proof (times_shown m us named_simple Henc updates_simple l v Hpl Hs Hne Hpos') as Htimes. fold ps in Htimes.
  assert (Hval : forall t w, 0 <= t -> shown us l v t w -> value_at l t (srt ps) (Some w)).
  { intros t w Ht Hsh. by apply (value_shown m us named_simple updates_simple srt l v t w). }
  assert (Hfun : forall t a b, value_at l t (srt ps) a -> value_at l t (srt ps) b -> a = b).
  { intros t a b Ha Hb'. rewrite <- (names_key _ _ Hq) in Ha, Hb'. apply value_at_fun in Ha, Hb'. congruence. }
  unfold tj_events. destruct (tj_track tsrt (from_patches srt ord now ps) (String.concat "." l) s e) as [res0| |] eqn:Htr.
  2: { exfalso. apply (track_err srt ord tsrt now ps _ l s e Hsrt Hord Hq) in Htr. apply Htr.
       exists (TPatch "add" (String.concat "." l) v 0), []. rewrite app_nil_r. split.
       - apply elem_of_app. left. apply (gen_in m named_simple). exists l, v, v. split; [done|]. split; [by constructor|done].
       - split; [by left|]. by eapply below_route. }
  2: { unfold tj_track in Htr. by destruct (find_item _ _). }
  cbn [rbind]. eexists. split; [reflexivity|].
  destruct (track_runs srt ord tsrt now ps _ l s e res0 Hsrt Hord Hts Hq Hlen ltac:(lia) Htimes Htr)
    as (rs & R2 & R3 & R4 & R5 & R6 & _). rewrite Forall_forall in R2.
  intros z Hz. rewrite (event_changing l v) by done. split.
  - intros Hx. apply elem_of_list_fmap in Hx as ([y x] & -> & Hy). apply elem_filter_b in Hy as [Hy Hv]. cbn [fst snd] in *.
    apply R6 in Hy as (a & b & -> & Hr & Hae & Hsb). destruct (R2 _ Hr) as [Ha Hb']. rewrite parse_range_ok in * by done. cbn [fst] in *.
    split; [lia|]. destruct (R4 a b x Hr) as (p & Hp & Hset & Et & Ev).
    apply elem_of_app in Hp as [Hp|Hp].
    + destruct (gen_on m named_simple p l v Hp Hpl Hne (proj2 Hset)) as (_ & H0 & _). lia.
    + destruct x as [| |f| | |]; try done. exists p, f. split; [done|]. split; [by apply (sets_path p l v)|done].
  - intros (Hze & u & f & Hu & Hp & Et & Ev & Hf).
    assert (Hset : sets u l) by (by apply (sets_path u l v)).
    assert (Hsh : shown us l v z (JNum f)).
    { rewrite <- Ev. apply sh_update; [done|done|lia|]. intros u' Hu' Hset' Ht'. destruct (decide (tp_ts u' < tp_ts u)) as [?|Hn]; [by right|]. left.
      apply (distinct_same (String.concat "." l)); try done; [by apply (sets_path u' l v)|lia]. }
    destruct (R5 z (JNum f)) as ([[a b] x] & Hr & Hc & Hal); [lia|by apply Hval; [lia|]|]. cbn [covers r_val] in Hc, Hal.
    destruct (R2 _ Hr) as [Ha Hb'].
    assert (a = z) as ->.
    { destruct (decide (a = z)) as [?|Hn]; [done|]. exfalso.
      destruct (in_force l v (z - 1) Hb Hs HD) as (w & z' & Hsh' & Hst & _).
      destruct (R3 (a, b, x) (z - 1) Hr) as (w' & Hw' & Hal'); [cbn; lia|]. cbn [r_val] in Hal'.
      assert (E : Some w' = Some w) by (apply (Hfun (z - 1)); [done|]; apply Hval; [lia|done]). injection E as ->.
      rewrite <- Et in Hst. apply (HC u w z' Hu Hp Hst). rewrite Ev. by eapply alike_both. }
    apply elem_of_list_fmap. exists (range_text z b, x). cbn [fst]. rewrite parse_range_ok by done. split; [done|].
    apply elem_filter_b. split.
    + apply R6. exists z, b. split; [done|]. split; [done|]. lia.
    + cbn [snd]. rewrite (over_alike thr x f Hal). done.
Qed.
End agree.

(** One experiment on both. *)
Lemma run_agree T srt ord now file m us h qs :
  transform file = JObj m -> named both_name (JObj m) -> json_encodable (JObj m) = true -> jnull_free (JObj m) = true ->
  (forall u, u ∈ us -> 0 <= tp_ts u < 2 ^ 63 ∧ exists l, updates m u l) ->
  Forall (fun q => oracle_ok (fst q)) qs -> StronglySorted Z.le (map snd qs) ->
  sorting tp_ts srt -> (forall x, Permutation (ord x) x) -> 0 <= now < 2 ^ 63 ->
  exists h' L st ds, create_logument T file us h = (h', Ok L) ∧ snapshot_run qs (h', L) = (st, Ok ds) ∧
    Forall2 (fun q d => snd q <= now -> (exists u, u ∈ us ∧ tp_ts u <= snd q) ->
      forall l v, below l (JObj m) = Some v -> scalar v -> (2 <= length l)%nat -> distinct_times us (String.concat "." l) ->
        (forall u, u ∈ us -> tp_path u = String.concat "." l -> 1 <= tp_ts u) ->
        exists x z w, at_path d (keys l) = Some (TLeaf x z) ∧
          below l (JObj (tj_snapshot (from_patches srt ord now (initial_patches file ++ us)) (snd q))) = Some w ∧
          alike w (json_of_prim x)) qs ds.
Proof.
  intros Ef Hn He Hnull Hus HO HS Hsrt Hord Hnow.
  destruct (snapshot_log_run T file m us h qs Ef (named_path m Hn) He Hnull) as (h' & L & d0 & st & ds & E1 & _ & _ & E2 & HF); [|done|done|].
  { intros u Hu. by apply Hus. }
  exists h', L, st, ds. split; [done|]. split; [done|]. eapply Forall2_impl; [exact HF|]. intros q d [_ H] Hq Hex l v Hb Hs Hl HD Hpos.
  assert (0 <= snd q). { destruct Hex as (u & Hu & Ht). apply Hus in Hu. lia. }
  eapply (agree_at file m us Ef Hn He Hnull Hus srt ord now (snd q) d d0 l v); try done. by apply H.
Qed.
Lemma events_agree T srt pord ord tsrt now file m us h qs path l v s e thr :
  transform file = JObj m -> named both_name (JObj m) -> json_encodable (JObj m) = true -> jnull_free (JObj m) = true ->
  (forall u, u ∈ us -> 0 <= tp_ts u < 2 ^ 63 ∧ exists l, updates m u l) ->
  Forall (fun q => oracle_ok (fst q)) qs -> StronglySorted Z.le (map snd qs) -> qs <> [] ->
  sorting tp_ts srt -> (forall x, Permutation (pord x) x) -> by_start tsrt -> (forall x, Permutation (ord x) x) ->
  below l (JObj m) = Some v -> scalar v -> (2 <= length l)%nat -> path = String.concat "." l ->
  distinct_times us path -> changing us l v -> (forall u, u ∈ us -> tp_path u = path -> 1 <= tp_ts u) ->
  1 <= s -> s <= e <= now -> now < 2 ^ 63 ->
  exists h' L st ds zs xs, create_logument T file us h = (h', Ok L) ∧ snapshot_run qs (h', L) = (st, Ok ds) ∧
    find_events ord path s e thr st = (st, Ok zs) ∧
    tj_events tsrt (from_patches srt pord now (initial_patches file ++ us)) path s e (over_threshold thr) = Ok xs ∧
    forall z, z ∈ zs <-> z ∈ xs ∧ s <= z.
Proof.
  intros Ef Hn He Hnull Hus HO HS Hqs Hsrt Hpord Hts Hord Hb Hs Hl Hp HD HC Hpos H1 Hse Hnow.
  destruct (search_run T file m us h qs ord path s e thr Ef (named_path m Hn) He Hnull) as (h' & L & st & ds & zs & E1 & E2 & E3 & _ & E4); try done; [|lia|].
  { intros u Hu. by apply Hus. }
  destruct (agree_events file m us Ef Hn He Hnull Hus srt pord tsrt now path l v s e thr) as (xs & E5 & E6); try done.
  exists h', L, st, ds, zs, xs. do 4 (split; [done|]). intros z. rewrite E4. split.
  - intros Hev. assert (s <= z) by (by destruct Hev as (u & f & _ & _ & _ & [? _] & _)). split; [|done]. by apply E6.
  - intros [Hx Hz]. by apply E6.
Qed.
