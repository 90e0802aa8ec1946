(** Facts about the vehicle data generator: data sets that can be written. *)
From stdpp Require Import pretty.
From Verif Require Import Base BaseLemmas BaseSpec Tjson TjsonSpec TjsonLemmas Tson TsonInd TsonSpec F64 Serial Heap Patch PatchSpec DiffSpec JsonSpec Bytes BytesLemmas Vss VssSpec VssLemmas VssPlace
  VssFloat VssGen VssData VssNext VssPatchSpec.
From Coq Require Import Lia.

(** ** No empty branch *)
Definition no_empty (x : wjson) : Prop := forall l, ~ item x l (WObj []).
Definition full (m : members) : Prop := forall l, l ≠ [] -> ~ item (WObj m) l (WObj []).
Lemma full_members (m : members) : full m <-> forall k v, (k, v) ∈ m -> no_empty v.
Proof.
  split.
  - intros H k v Hin l Hl. apply (H (k :: l)); [done|]. by econstructor.
  - intros H l Hl Hi. inversion Hi; subst; [done|]. by eapply H.
Qed.
Lemma insert_in (k : string) (v : wjson) m k' v' : (k', v') ∈ ainsert k v m -> (k', v') = (k, v) ∨ (k', v') ∈ m.
Proof.
  induction m as [|[k2 v2] m IH]; cbn [ainsert].
  - intros H%elem_of_list_singleton. by left.
  - case_decide.
    + intros [?|?]%elem_of_cons; [left; by subst|right; by right].
    + intros [E|H1]%elem_of_cons; [right; rewrite E; by left|]. apply IH in H1 as [?|?]; [by left|right; by right].
Qed.
Lemma full_insert k v m : full m -> no_empty v -> full (ainsert k v m).
Proof.
  rewrite !full_members. intros H Hv k' v' [[= -> ->]|Hin]%insert_in; [done|]. by eapply H.
Qed.
Lemma insert_ne (k : string) (v : wjson) m : ainsert k v m ≠ [].
Proof. destruct m as [|[k' v'] m]; cbn [ainsert]; [done|]. by case_decide. Qed.
Lemma no_empty_map n : n ≠ [] -> full n -> no_empty (WObj n).
Proof.
  intros Hn Hf l Hi. destruct l as [|k l]; [|by destruct (Hf (k :: l))]. inversion Hi; subst. done.
Qed.
Lemma full_nil : full [].
Proof. intros l Hl Hi. inversion Hi as [|? ? ? ? ? Hin]; subst; [done|]. by apply elem_of_nil in Hin. Qed.
Lemma place_full x l : forall m m', no_empty x -> l ≠ [] -> full m -> place (Some x) l m = Ok m' -> full m' ∧ m' ≠ [].
Proof.
  induction l as [|k l IH]; intros m m' Hx Hl Hm E; [done|]. cbn [place] in E.
  assert (Hin : forall v, alookup k m = Some v -> no_empty v).
  { intros v Hv. apply alookup_Some_in in Hv. by eapply full_members. }
  destruct (alookup k m) as [[| | | | | |n]|] eqn:Ek; [by destruct l..| |].
  - assert (Hn : no_empty (WObj n)) by (by apply Hin).
    assert (Hnf : full n) by (intros q _ Hi; by eapply Hn).
    destruct l as [|k2 l].
    + injection E as <-. split; [|apply insert_ne]. apply full_insert; [done|]. apply no_empty_map; [apply insert_ne|]. by apply full_insert.
    + destruct (place (Some x) (k2 :: l) n) as [n'| |] eqn:En; try done. cbn [rbind] in E. injection E as <-.
      destruct (IH n n' Hx ltac:(done) Hnf En) as [H1 H2].
      split; [|apply insert_ne]. apply full_insert; [done|]. by apply no_empty_map.
  - destruct l as [|k2 l].
    + injection E as <-. split; [|apply insert_ne]. by apply full_insert.
    + destruct (place (Some x) (k2 :: l) []) as [n'| |] eqn:En; try done. cbn [rbind] in E. injection E as <-.
      destruct (IH [] n' Hx ltac:(done) full_nil En) as [H1 H2].
      split; [|apply insert_ne]. apply full_insert; [done|]. by apply no_empty_map.
Qed.
Lemma place_all_full L : forall m m', (forall l v, (l, v) ∈ L -> l ≠ [] ∧ exists x, v = Some x ∧ no_empty x) -> full m ->
  place_all L m = Ok m' -> full m'.
Proof.
  induction L as [|[l v] L IH]; intros m m' HL Hm E; [by injection E as <-|]. cbn [place_all] in E.
  destruct (HL l v ltac:(by left)) as (Hl & x & -> & Hx).
  destruct (place (Some x) l m) as [m1| |] eqn:E1; try done. cbn [rbind] in E.
  apply (IH m1); [|by eapply place_full|done]. intros l' v' Hin. apply HL. by right.
Qed.

(** ** Cells *)
Lemma holds_reading v ts : holds (reading v ts) v ts.
Proof. by eexists. Qed.
Lemma holds_value x v ts : holds x v ts -> has_value x v.
Proof. intros (m & -> & HP). exists m. split; [done|]. rewrite HP. by left. Qed.
Lemma holds_stamped x v ts : holds x v ts -> stamped x.
Proof. intros (m & -> & HP). exists m. split; [done|]. rewrite HP. simpl. right. by left. Qed.
Lemma holds_keys x v ts m : holds x v ts -> x = WObj m -> NoDup (map fst m).
Proof. intros (m' & -> & HP) [= <-]. rewrite HP. apply NoDup_cons. split; [|apply NoDup_singleton]. simpl. set_solver. Qed.
Lemma holds_fun x v ts v' ts' : holds x v ts -> holds x v' ts' -> v = v' ∧ ts = ts'.
Proof.
  intros (m & -> & HP) (m' & [= <-] & HP'). rewrite HP in HP'.
  assert (H1 : ("value", v) ∈ [("value", v'); ("timestamp", WInt ts')]) by (rewrite <- HP'; by left).
  assert (H2 : ("timestamp", WInt ts) ∈ [("value", v'); ("timestamp", WInt ts')]) by (rewrite <- HP'; right; by left).
  rewrite !elem_of_cons, elem_of_nil in H1, H2. destruct H1 as [[= ->]|[?|?]]; [|discriminate|done].
  destruct H2 as [?|[[= ->]|?]]; [discriminate| |done]. done.
Qed.
(** ** Data sets with conditions on names, values and timestamps *)
Section tidy.
Context (N : string -> Prop) (V : wjson -> Prop) (St : Z -> Prop).
Definition cell_ok (x : wjson) : Prop := exists v ts, holds x v ts ∧ V v ∧ St ts.
Definition leaf_ok (x : wjson) : Prop := cell_ok x ∨ exists xs, x = WArr xs ∧ Forall cell_ok xs.
Record tidy (d : wjson) : Prop := Tidy {
  td_map : is_map d;
  td_open : ~ stamped d;
  td_names : keyed (fun k => schema_name k ∧ N k) d;
  td_visible : forall l x, leaf_at d l x -> visible l = l;
  td_leaf : forall l x, leaf_at d l x -> leaf_ok x;
  td_full : forall l, l ≠ [] -> ~ item d l (WObj []) }.
Definition draws_ok (D : draws) : Prop := forall n, V (WNum (SFmul f64_prec f64_emax (d_float D n) (f64_of_Z 100))).
(** The conditions hold of everything the generator makes up itself. *)
Record admits : Prop := Admits {
  ad_plain : forall v, V v -> plain_value v;
  ad_bool : forall b, V (WBool b);
  ad_int : forall z, -100 <= z <= 100 -> V (WInt z);
  ad_text : forall s, sample s -> V (WStr s);
  ad_names : N "value" ∧ N "timestamp" }.
Lemma tidy_dataset d : (forall v, V v -> plain_value v) -> tidy d -> dataset d.
Proof.
  intros HV [H1 H2 H3 H4 H5 _]. constructor; [done|done| |done|].
  - eapply keyed_impl; [|exact H3]. by intros k [? _].
  - intros l x Hl. destruct (H5 l x Hl) as [(v & ts & Hh & Hv & _)|(xs & -> & HF)].
    + left. exists v. split; [by eapply holds_value|by apply HV].
    + right. exists xs. split; [done|]. eapply Forall_impl; [exact HF|]. intros y (v & ts & Hh & _). exists v. by eapply holds_value.
Qed.
Context (AD : admits).
Lemma cell_no_empty x : cell_ok x -> no_empty x.
Proof.
  intros (v & ts & (m & -> & HP) & Hv & _) l Hi. inversion Hi as [|? k w l' ? Hin Hi']; subst.
  - by apply Permutation_nil_cons in HP.
  - rewrite HP in Hin. rewrite !elem_of_cons, elem_of_nil in Hin. destruct Hin as [[= -> ->]|[[= -> ->]|?]]; [| |done].
    + apply (ad_plain AD) in Hv. destruct v; try done; inversion Hi'.
    + inversion Hi'.
Qed.
Lemma array_no_empty l : no_empty (WArr l).
Proof. intros q Hi. inversion Hi. Qed.
Lemma cell_value x v ts : holds x v ts -> value_of x = Ok v.
Proof.
  intros Hh. assert (Hv := holds_value _ _ _ Hh). destruct Hh as (m & -> & HP).
  assert (HN : NoDup (map fst m)) by (eapply holds_keys; [by exists m|done]).
  destruct Hv as (m' & [= <-] & Hin). apply alookup_in in Hin; [|done]. cbn. by rewrite Hin.
Qed.
Lemma restamp_ok ts l l' : St ts -> Forall (cell_ok) l -> restamp ts l = Ok l' ->
  Forall2 (fun x x' => exists v t, holds x v t ∧ V v ∧ x' = reading v ts) l l' ∧ Forall (cell_ok) l'.
Proof.
  intros Hts HF. revert l'. induction HF as [|x l (v & t & Hh & Hv & _) HF IH]; intros l' E; [injection E as <-; by split|].
  cbn [restamp] in E. rewrite (cell_value _ _ _ Hh) in E. cbn [rbind] in E. destruct (restamp ts l) as [r| |] eqn:Er; try done.
  cbn [rbind] in E. injection E as <-. destruct (IH r eq_refl) as [H1 H2]. split; constructor; try done.
  - by exists v, t.
  - exists v, ts. split; [apply holds_reading|done].
Qed.
(** One leaf: every cell has a successor at the same place. *)
Inductive follows (ts : Z) : wjson -> wjson -> Prop :=
| fo_kept x : follows ts x x
| fo_cell x x' v t v' : holds x v t -> holds x' v' ts -> follows ts x x'
| fo_arr l l' : Forall2 (fun x x' => exists v t, holds x v t ∧ holds x' v ts) l l' -> follows ts (WArr l) (WArr l').
Lemma next_ok c m D ts x x' : fair D -> draws_ok D -> St ts -> leaf_ok x ->
  next_value c m D ts x = Ok (Some x') -> leaf_ok x' ∧ follows ts x x'.
Proof.
  intros HFD HD Hts [(v & t & Hh & Hv & Ht)|(l & -> & HF)] E.
  - destruct (HFD) as [_ HI]. assert (Ev := cell_value _ _ _ Hh).
    assert (Hnew : forall v', V v' -> leaf_ok (tson_leaf v' ts) ∧ follows ts x (tson_leaf v' ts)).
    { intros v' Hv'. split.
      - left. exists v', ts. split; [apply holds_reading|done].
      - eapply fo_cell; [exact Hh|apply holds_reading]. }
    assert (Hx : exists mm, x = WObj mm) by (destruct Hh as (mm & -> & _); eauto). destruct Hx as (mm & Ex).
    unfold next_value in E. rewrite Ex in E. rewrite <- Ex in E. rewrite Ev in E. cbn [rbind] in E.
    destruct (f64_lt (d_float D 0) c).
    + injection E as E. destruct v; try done; injection E as <-; apply Hnew; cbn [value_writes].
      * apply (ad_bool AD).
      * apply HD.
      * apply (ad_int AD). specialize (HI 0%nat 201 ltac:(lia)). lia.
      * by apply (ad_text AD), random_sample.
    + destruct (f64_lt (d_float D 0) (f64_add c m)).
      * injection E as <-. by apply Hnew.
      * injection E as <-. split; [|constructor]. left. by exists v, t.
  - cbn [next_value] in E. destruct (restamp ts l) as [l'| |] eqn:Er; try done. cbn [rbind] in E. injection E as <-.
    destruct (restamp_ok ts l l' Hts HF Er) as [H1 H2]. split; [right; by exists l'|]. constructor.
    eapply Forall2_impl; [exact H1|]. intros a b (v & t & Hh & _ & ->). exists v, t. split; [done|apply holds_reading].
Qed.
(** Names lie on paths of leaves. *)
Lemma full_leaf d : no_empty d ∨ ~ is_map d -> exists l x, leaf_at d l x.
Proof.
  induction d as [|b|f|z|s|l IH|m IH] using wjson_ind'; intros H; try (eexists [], _; apply la_here; left; by intros [? ?]).
  destruct H as [H|H]; [|destruct H; by exists m].
  destruct (decide ("timestamp" ∈ map fst m)) as [Hs|Hs].
  - exists [], (WObj m). constructor. right. by exists m.
  - destruct m as [|[k v] m]; [by destruct (H []); constructor|]. inversion IH as [|? ? Hv _]; subst. cbn [snd] in Hv.
    destruct Hv as (l & x & Hl).
    + left. intros l Hi. apply (H (k :: l)). econstructor; [by left|done].
    + exists (k :: l), x. econstructor; [|by left|done]. intros (m' & [= <-] & Hin). done.
Qed.
Lemma keyed_paths (P Q : string -> Prop) d : keyed P d -> no_empty d ∨ ~ is_map d ->
  (forall l x, leaf_at d l x -> Forall Q l ∧ keyed Q x) -> keyed Q d.
Proof.
  induction d as [|b|f|z|s|l IH|m IH] using wjson_ind'; intros HK HE H;
    try (refine (proj2 (H [] _ (la_here _ (or_introl _)))); by intros [? ?]).
  destruct HE as [HE|HE]; [|destruct HE; by exists m].
  destruct (decide ("timestamp" ∈ map fst m)) as [Hs|Hs].
  - by destruct (H [] (WObj m)) as [_ ?]; [constructor; right; by exists m|].
  - apply keyed_map in HK as [HN HF]. apply keyed_map. split; [done|].
    assert (Hns : ~ stamped (WObj m)) by (intros (m' & [= <-] & Hin); done).
    rewrite Forall_forall in IH, HF |- *. intros [k v] Hin. cbn [fst snd].
    assert (Hv : no_empty v) by (intros l Hi; apply (HE (k :: l)); by econstructor).
    destruct (full_leaf v (or_introl Hv)) as (l & x & Hl).
    split.
    + destruct (H (k :: l) x) as [Hq _]; [by econstructor|]. by inversion Hq.
    + apply (IH (k, v) Hin); [by destruct (HF _ Hin)|by left|]. intros l' x' Hl'.
      destruct (H (k :: l') x') as [Hq ?]; [by econstructor|]. inversion Hq; subst. done.
Qed.
Lemma leaf_named x : leaf_ok x -> keyed (fun k => schema_name k ∧ N k) x.
Proof.
  assert (Hc : forall y, cell_ok y -> keyed (fun k => schema_name k ∧ N k) y).
  { intros y (v & ts & Hh & Hv & _). assert (HN := fun m => holds_keys _ _ _ m Hh). destruct Hh as (m & -> & HP). apply keyed_map. split; [by apply HN|].
    rewrite HP. destruct (ad_names AD) as [U1 U2]. constructor; [|constructor; [|constructor]]; cbn [fst snd].
    - split; [|by apply scalar_keyed, (ad_plain AD)]. split; [|done]. split; [done|by apply free_contains].
    - split; [|by apply scalar_keyed]. split; [|done]. split; [done|by apply free_contains]. }
  intros [H|(xs & -> & HF)]; [by apply Hc|]. apply ky_arr. eapply Forall_impl; [exact HF|]. exact Hc.
Qed.
Lemma leaf_no_empty x : leaf_ok x -> no_empty x.
Proof. intros [H|(xs & -> & _)]; [by apply cell_no_empty|apply array_no_empty]. Qed.

(** ** A round *)
Lemma next_tidy c m R ts d : tidy d -> (forall p, fair (R p)) -> (forall p, draws_ok (R p)) -> St ts ->
  exists d', next_data c m R ts (Vss true d) = Ok d' ∧ tidy d' ∧
    (forall l, (exists x, leaf_at d l x) <-> exists x', leaf_at d' l x') ∧
    (forall l x x', leaf_at d l x -> leaf_at d' l x' -> follows ts x x' ∧ same_type x x').
Proof.
  intros TD HR HW Hts. assert (D := tidy_dataset _ (ad_plain AD) TD).
  destruct (next_exact c m R ts d D HR) as (d' & E & D' & HP & HM & HV & r & L & -> & EL & HL).
  assert (Hleaf : forall l x', leaf_at (WObj r) l x' -> exists x, leaf_at d l x ∧ leaf_ok x' ∧ follows ts x x').
  { intros l x' Hl'. destruct (proj2 (HP l)) as (x & Hl); [by exists x'|]. exists x. split; [done|].
    apply (next_ok c m (R (String.concat "." l)) ts); [done|done|done|by eapply td_leaf|]. by apply HV. }
  assert (Hfull : full r).
  { apply (place_all_full L []); [|apply full_nil|done]. intros l v Hin. destruct (HL l v Hin) as (Hl & x' & -> & Hx').
    split; [done|]. exists x'. split; [done|]. destruct (Hleaf l x' Hx') as (x & _ & ? & _). by apply leaf_no_empty. }
  exists (WObj r). split; [done|]. split; [|split; [done|]].
  - constructor.
    + by apply ds_map.
    + by apply ds_open.
    + assert (HK := ds_names _ D'). apply keyed_map in HK as [HN HF]. apply keyed_map. split; [done|].
      rewrite Forall_forall in HF |- *. intros [k v] Hin. cbn [fst snd]. destruct (HF _ Hin) as [_ Kv]. cbn [snd] in Kv.
      assert (Hns := ds_open _ D').
      assert (Hv : no_empty v) by (rewrite full_members in Hfull; by eapply Hfull).
      assert (HQ : forall l x', leaf_at (WObj r) l x' -> Forall (fun k => schema_name k ∧ N k) l ∧ keyed (fun k => schema_name k ∧ N k) x').
      { intros l x' Hl'. destruct (Hleaf l x' Hl') as (x & Hl & Hx' & _). split; [|by apply leaf_named].
        eapply leaf_at_names; [by apply td_names|exact Hl]. }
      destruct (full_leaf v (or_introl Hv)) as (l & x & Hl). split.
      * destruct (HQ (k :: l) x) as [Hq _]; [by econstructor|]. by inversion Hq.
      * apply (keyed_paths schema_name); [done|by left|]. intros l' x' Hl'.
        destruct (HQ (k :: l') x') as [Hq ?]; [by econstructor|]. inversion Hq; subst. done.
    + by apply ds_visible.
    + intros l x' Hl'. by destruct (Hleaf l x' Hl') as (x & _ & ? & _).
    + exact Hfull.
  - intros l x x' Hl Hl'. split.
    + destruct (Hleaf l x' Hl') as (x0 & Hl0 & _ & Hf). by rewrite (leaf_at_fun _ d (ds_names _ D) l x x0).
    + eapply (moved_type c m _ ts _ _ schema_name); [|exact (ds_leaf d D l x Hl)|exact (HM l x x' Hl Hl')].
      eapply leaf_at_keyed; [exact (ds_names d D)|exact Hl].
Qed.

(** ** The first data set *)
Lemma gen_array_ok D elem ts : St ts -> (forall n, V (elem n)) -> forall fuel i,
  Forall (cell_ok) (gen_array fuel D elem ts i).
Proof.
  intros Hts He fuel. induction fuel as [|fuel IH]; intros i; cbn [gen_array]; [constructor|]. case_match; [|constructor].
  constructor; [|apply IH]. eexists _, ts. split; [apply holds_reading|done].
Qed.
Lemma gen_value_tidy D ts meta x : fair D -> draws_ok D -> St ts ->
  (exists t, has meta "datatype" (WStr t)) ->
  (forall y, has meta "allowed" y -> exists v l, y = WArr (v :: l) ∧ Forall (V) (v :: l)) ->
  gen_value D ts meta = Ok (Some x) -> leaf_ok x.
Proof.
  intros [HF HI] HD Hts (dt & Hdt) HA E.
  assert (Hc : forall v, V v -> leaf_ok (tson_leaf v ts)).
  { intros v Hv. left. exists v, ts. split; [apply holds_reading|done]. }
  assert (Ha : forall elem, (forall n, V (elem n)) -> leaf_ok (WArr (gen_array 5 D elem ts 0))).
  { intros elem He. right. eexists. split; [done|]. by apply gen_array_ok. }
  assert (Hs : forall n, V (WStr (random_string D n))) by (intros n; by apply (ad_text AD), random_sample).
  unfold gen_value in E. unfold has in Hdt. rewrite Hdt in E. destruct (is_text (Some (WStr dt)) "boolean"); [injection E as <-; by apply Hc, (ad_bool AD)|].
  destruct (_ || _ || _) in E.
  { injection E as <-. apply Hc. case_match; [apply HD|]. apply (ad_int AD).
    pose proof (draw_int _ (HF 0%nat)). lia. }
  destruct (alookup "allowed" meta) as [al|] eqn:Eal.
  { destruct (HA al Eal) as (v & l & -> & Hl). injection E as <-. apply Hc. rewrite Forall_forall in Hl.
    apply (Hl (nth (Z.to_nat (d_int D 0 (Z.of_nat (length (v :: l))))) (v :: l) WNull)).
    apply elem_of_list_In, nth_In. specialize (HI 0%nat (Z.of_nat (length (v :: l))) ltac:(cbn; lia)). lia. }
  destruct (_ || _) in E; [injection E as <-; apply Hc, HD|].
  destruct (is_text _ "float[]"); [injection E as <-; apply (Ha (fun n => WNum (f64_mul (d_float D n) hundred))); intros n; apply HD|].
  destruct (_ || _) in E; [injection E as <-; apply Hc, (ad_int AD); specialize (HI 0%nat 201 ltac:(lia)); lia|].
  destruct (is_text _ "string"); [injection E as <-; by apply Hc|].
  destruct (is_text _ "string[]"); [injection E as <-; by apply (Ha (fun n => WStr (random_string D n)))|].
  destruct (_ || _) in E; [injection E as <-; apply Hc, (ad_int AD); specialize (HI 0%nat 101 ltac:(lia)); lia|].
  destruct (is_text _ "uint8[]"); [injection E as <-; apply (Ha (fun n => WInt (d_int D n 101))); intros n; apply (ad_int AD); specialize (HI n 101 ltac:(lia)); lia|].
  done.
Qed.
Lemma visible_in l k : k ∈ visible l -> k ∈ l.
Proof.
  destruct l as [|k0 l]; [done|]. cbn [visible]. rewrite !elem_of_cons. intros [?|H]; [by left|right].
  apply elem_of_list_In, filter_In in H as [H _]. by apply elem_of_list_In.
Qed.
Lemma generate_tidy size R ord ts b d : schema d -> typed d -> keyed N d -> (forall ns l, attr d ns "allowed" (WArr l) -> Forall V l) -> (forall p, fair (R p)) ->
  (forall p, draws_ok (R p)) -> St ts -> (forall l, ord l ≡ₚ l) ->
  exists r, generate size R ord ts (Vss b d) = Ok (Vss true r) ∧ tidy r ∧
    (forall q, (exists x, leaf_at r q x) <-> node d q ∧ SFltb size (d_float (R (String.concat "." q)) 0) = false) ∧
    (forall q v t, cell r q v t -> t = ts).
Proof.
  intros S HT HU HAl HR HW Hts Hord.
  destruct (generate_dataset size R ord ts b d S HT HR Hord) as (r & E & D & Hfit & HN).
  destruct (generate_exact size R ord ts b d S HR Hord) as (r' & E' & _ & _ & _ & _ & _ & m & L & -> & EL & HL1 & HL2).
  rewrite E in E'. injection E' as ->. exists (WObj m). split; [done|].
  assert (HLw : forall q v, (q, v) ∈ L -> q ≠ [] ∧ Forall (fun k => schema_name k ∧ N k) q ∧ exists x, v = Some x ∧ leaf_ok x).
  { intros q v Hin. destruct (HL2 q v Hin) as (Hq & Hn & meta & HA & Ev). split; [done|].
    destruct (HT q Hn) as ((t & Ht & Hd) & _).
    assert (Hd' : has meta "datatype" (WStr t)) by (by apply HA). split.
    - destruct Hd as (l & Hl & El). assert (G1 := leaf_at_names _ d l _ (sc_names d S) Hl); assert (G2 := leaf_at_names _ d l _ HU Hl); rewrite Forall_forall in G1, G2;
        apply Forall_forall; intros k Hk; assert (k ∈ l) by (apply visible_in; rewrite El; apply elem_of_app; by left); split; [by apply G1|by apply G2].
    - destruct (gen_value_ok (shift (R (String.concat "." q))) ts meta) as (v' & Ev' & _ & Hk).
      + by apply fair_shift.
      + intros y Hy. apply HA in Hy. by apply (sc_allowed d S q).
      + rewrite Ev in Ev'. injection Ev' as <-. destruct v as [x|].
        * exists x. split; [done|]. apply (gen_value_tidy (shift (R (String.concat "." q))) ts meta); [by apply fair_shift| |done|by exists t| |done].
          -- intros n. apply (HW (String.concat "." q)).
          -- intros y Hy. apply HA in Hy. destruct (sc_allowed d S q y Hy) as (w & l & ->). exists w, l. split; [done|]. by apply (HAl q).
        * destruct Hk; [|done]. right. intros y Hy. right. exists t. split; [done|]. unfold has in Hy, Hd'. congruence. }
  assert (Hleaf : forall q x, leaf_at (WObj m) q x -> Forall (fun k => schema_name k ∧ N k) q ∧ leaf_ok x).
  { intros q x Hl. destruct (HLw q (Some x) (HL1 q x Hl)) as (_ & ? & y & [= <-] & ?). done. }
  assert (Hfull : full m).
  { apply (place_all_full L []); [|apply full_nil|done]. intros l v Hin. destruct (HLw l v Hin) as (Hl & _ & x & -> & Hx).
    split; [done|]. exists x. split; [done|]. by apply leaf_no_empty. }
  split; [|split; [done|]].
  - constructor.
    + by apply ds_map.
    + by apply ds_open.
    + assert (HK := ds_names _ D). apply keyed_map in HK as [HN' HF]. apply keyed_map. split; [done|].
      rewrite Forall_forall in HF |- *. intros [k v] Hin. cbn [fst snd]. destruct (HF _ Hin) as [_ Kv]. cbn [snd] in Kv.
      assert (Hns := ds_open _ D).
      assert (Hv : no_empty v) by (rewrite full_members in Hfull; by eapply Hfull).
      destruct (full_leaf v (or_introl Hv)) as (l & x & Hl). split.
      * destruct (Hleaf (k :: l) x) as [Hq _]; [by econstructor|]. by inversion Hq.
      * apply (keyed_paths schema_name); [done|by left|]. intros l' x' Hl'.
        destruct (Hleaf (k :: l') x') as [Hq Hx]; [by econstructor|]. inversion Hq; subst. split; [done|by apply leaf_named].
    + by apply ds_visible.
    + intros l x' Hl'. by destruct (Hleaf l x' Hl') as (_ & ?).
    + exact Hfull.
  - intros q v t (l & x & Hl & Hc).
    assert (Hst : forall y w, holds y v t -> y = reading w ts -> t = ts).
    { intros y w Hh ->. by destruct (holds_fun _ _ _ _ _ Hh (holds_reading w ts)). }
    destruct (Hfit l x Hl) as [b' H|t' z G1 G2 G3|f G1 G2 G3|al w G1 G2 G3|t' w G1 G2 G3 G4|t' al G1 G2 G3 G4 G5|G1 G2];
      destruct Hc as [(_ & Hh)|(i & xs & y & _ & Ex & Hi & Hh)]; try discriminate Ex; try exact (Hst _ _ Hh eq_refl).
    { by destruct Hh as (? & ? & _). }
    injection Ex as <-. rewrite Forall_lookup in G5. destruct (G5 i y Hi) as (w & _ & Ey). exact (Hst _ _ Hh Ey).
Qed.
End tidy.

(** ** Data sets written as JSON *)
Lemma sample_utf8 s : sample s -> utf8 s.
Proof.
  intros (n & Hn & ->).
  assert (H : n ∈ seq 1 20) by (apply elem_of_seq; lia).
  assert (HA : Forall (fun n => utf8 ("TEST_STRING_VALUE_" +++ pretty n)) (seq 1 20)).
  { cbn [seq]. repeat (constructor; [vm_compute; repeat (apply u8_ascii; [vm_compute; done|]); constructor|]). constructor. }
  rewrite Forall_forall in HA. by apply HA.
Qed.
Lemma utf8_names : utf8 "value" ∧ utf8 "timestamp".
Proof. split; repeat (apply u8_ascii; [vm_compute; done|]); constructor. Qed.
Section kept.
Context (T : textlib) (num : f64 -> string).
Definition leaf_writes (x : wjson) : Prop := cell_writes T num x ∨ exists xs, x = WArr xs ∧ Forall (cell_writes T num) xs.
Lemma writes_plain v : value_writes T num v -> plain_value v.
Proof. by destruct v. Qed.
Lemma writes_admits D : draws_write T num D -> admits utf8 (value_writes T num).
Proof.
  intros [_ HZ]. constructor; [apply writes_plain|done|exact HZ|exact sample_utf8|exact utf8_names].
Qed.
Lemma telemetry_tidy d : telemetry T num d <-> tidy utf8 (value_writes T num) (stamp_writes T) d.
Proof. split; intros []; by constructor. Qed.
Lemma telemetry_dataset d : telemetry T num d -> dataset d.
Proof. intros H. apply (tidy_dataset utf8 (value_writes T num) (stamp_writes T)); [exact writes_plain|by apply telemetry_tidy]. Qed.
Lemma next_telemetry c m R ts d : telemetry T num d -> (forall p, fair (R p)) -> (forall p, draws_write T num (R p)) -> stamp_writes T ts ->
  exists d', next_data c m R ts (Vss true d) = Ok d' ∧ telemetry T num d' ∧
    (forall l, (exists x, leaf_at d l x) <-> exists x', leaf_at d' l x') ∧
    (forall l x x', leaf_at d l x -> leaf_at d' l x' -> follows ts x x' ∧ same_type x x').
Proof.
  intros TD HR HW Hts. destruct (next_tidy utf8 (value_writes T num) (stamp_writes T) (writes_admits (R "") (HW "")) c m R ts d) as (d' & E & TD' & H);
    [by apply telemetry_tidy|done|intros p; exact (proj1 (HW p))|done|].
  exists d'. split; [done|]. split; [by apply telemetry_tidy|done].
Qed.
Lemma generate_telemetry size R ord ts b d : schema d -> typed d -> schema_writes T num d -> (forall p, fair (R p)) ->
  (forall p, draws_write T num (R p)) -> stamp_writes T ts -> (forall l, ord l ≡ₚ l) ->
  exists r, generate size R ord ts (Vss b d) = Ok (Vss true r) ∧ telemetry T num r ∧
    (forall q, (exists x, leaf_at r q x) <-> node d q ∧ SFltb size (d_float (R (String.concat "." q)) 0) = false) ∧
    (forall q v t, cell r q v t -> t = ts).
Proof.
  intros S HT [HU HAl] HR HW Hts Hord.
  destruct (generate_tidy utf8 (value_writes T num) (stamp_writes T) (writes_admits (R "") (HW "")) size R ord ts b d) as (r & E & TD & H);
    [done|done|done|done|done|intros p; exact (proj1 (HW p))|done|done|].
  exists r. split; [done|]. split; [by apply telemetry_tidy|done].
Qed.
End kept.
