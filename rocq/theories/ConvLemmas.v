(** Proofs about equality and the JSON conversions. *)
From Verif Require Import Base F64 Tson TsonInd BaseLemmas F64Lemmas TextSpec TsonSpec TsonLemmas.
From Coq Require Import Lia.

(** ** Objects matched key by key *)
Lemma adelete_perm {V} k (v : V) m :
  NoDup (akeys m) -> alookup k m = Some v -> m ≡ₚ (k, v) :: adelete k m.
Proof.
  induction m as [|[k' v'] m IH]; simpl; [done|]. intros [Hn ND]%NoDup_cons.
  case_decide as H.
  - intros [=->]. subst. by rewrite adelete_notin by (by apply alookup_None_iff).
  - intros E. rewrite (IH ND E) at 1. constructor.
Qed.
Lemma length_adelete {V} k (v : V) m :
  NoDup (akeys m) -> alookup k m = Some v -> length m = S (length (adelete k m)).
Proof. intros ND E. by rewrite (adelete_perm k v m ND E) at 1. Qed.

Lemma obj_match {V W} (R : V -> W -> Prop) (m : list (string * V)) (m' : list (string * W)) :
  NoDup (akeys m) -> NoDup (akeys m') -> length m = length m' ->
  (forall k v, (k, v) ∈ m -> exists w, alookup k m' = Some w ∧ R v w) ->
  exists m1, m' ≡ₚ m1 ∧ Forall2 (fun a b => fst a = fst b ∧ R (snd a) (snd b)) m m1.
Proof.
  revert m'. induction m as [|[k v] m IH]; intros m' ND ND' Hlen H.
  - destruct m'; [|done]. exists []. split; [done|constructor].
  - simpl in ND. apply NoDup_cons in ND as [Hn ND].
    destruct (H k v) as (w & E & HR); [constructor|].
    destruct (IH (adelete k m')) as (m1 & HP & HF).
    + done.
    + by apply NoDup_adelete.
    + rewrite (length_adelete k w m' ND' E) in Hlen. simpl in Hlen. lia.
    + intros k2 v2 Hin. destruct (H k2 v2) as (w2 & E2 & HR2); [by constructor|].
      exists w2. split; [|done]. rewrite alookup_adelete_ne; [done|]. intros ->. apply Hn.
      apply elem_of_list_fmap. by exists (k, v2).
    + exists ((k, w) :: m1). split.
      * rewrite (adelete_perm k w m' ND' E). by constructor.
      * by constructor.
Qed.
Lemma obj_match_inv {V W} (R : V -> W -> Prop) (m m1 : list (string * V)) (m' : list (string * W)) :
  NoDup (akeys m') -> m ≡ₚ m1 ->
  Forall2 (fun a b => fst a = fst b ∧ R (snd a) (snd b)) m1 m' ->
  length m = length m' ∧ forall k v, (k, v) ∈ m -> exists w, alookup k m' = Some w ∧ R v w.
Proof.
  intros ND HP HF. split.
  - rewrite HP. by apply Forall2_length in HF.
  - intros k v Hin. rewrite HP in Hin. apply elem_of_list_lookup in Hin as [i Hi].
    destruct (Forall2_lookup_l _ _ _ _ _ HF Hi) as ([k' w] & Hj & Ek & HR). simpl in *. subst.
    exists w. split; [|done]. apply alookup_in; [done|]. by eapply elem_of_list_lookup_2.
Qed.

(** [deep_eq] on objects. *)
Lemma deep_eq_obj m m' :
  deep_eq (JObj m) (JObj m') = true <->
  length m = length m' ∧ forall k v, (k, v) ∈ m -> exists w, alookup k m' = Some w ∧ deep_eq v w = true.
Proof.
  cbn [deep_eq]. rewrite andb_true_iff, Nat.eqb_eq, forallb_forall. split.
  - intros [A B]. split; [done|]. intros k v Hin. apply elem_of_list_In in Hin.
    specialize (B _ Hin). simpl in B. destruct (alookup k m'); [eauto|done].
  - intros [A B]. split; [done|]. intros [k v] Hin. apply elem_of_list_In in Hin.
    destruct (B _ _ Hin) as (w & E & HR). simpl. by rewrite E.
Qed.
Lemma deep_eq_arr l l' :
  deep_eq (JArr l) (JArr l') = true <-> Forall2 (fun a b => deep_eq a b = true) l l'.
Proof.
  revert l'. induction l as [|x l IH]; intros [|y l'].
  - split; [constructor|done].
  - split; [done|by inversion 1].
  - split; [done|by inversion 1].
  - change (deep_eq (JArr (x :: l)) (JArr (y :: l')))
      with (deep_eq x y && deep_eq (JArr l) (JArr l')).
    rewrite andb_true_iff, IH. split; [intros [? ?]; by constructor|by inversion 1].
Qed.

(** ** Two encodings of documents, compared *)
Section enc.
Context (enc : tson -> json) (R : Z -> Z -> Prop).
Context (enc_nil : enc TNil = JNull).
Context (enc_obj : forall m, enc (TObj m) = JObj (map (fun kv => (fst kv, enc (snd kv))) m)).
Context (enc_arr : forall l, enc (TArr l) = JArr (map enc l)).
Context (leaf_leaf : forall p ts q ts',
  deep_eq (enc (TLeaf p ts)) (enc (TLeaf q ts')) = true <-> prim_eq p q ∧ R ts ts').
Context (leaf_other : forall p ts t, wf t -> (forall q ts', t ≠ TLeaf q ts') ->
  deep_eq (enc (TLeaf p ts)) (enc t) = false ∧ deep_eq (enc t) (enc (TLeaf p ts)) = false).

Lemma deep_eq_enc a b : wf a -> wf b -> deep_eq (enc a) (enc b) = true <-> agree R a b.
Proof.
  revert b. induction a as [|p ts|m IH|l IH] using tson_ind'; intros b Ha Hb.
  - rewrite enc_nil. destruct b as [|q ts'|m'|l'].
    + rewrite enc_nil. split; [constructor|done].
    + destruct (leaf_other q ts' TNil) as [_ E]; [constructor|done|]. rewrite enc_nil in E.
      rewrite E. split; [done|by inversion 1].
    + rewrite enc_obj. split; [done|by inversion 1].
    + rewrite enc_arr. split; [done|by inversion 1].
  - destruct b as [|q ts'|m'|l'].
    + destruct (leaf_other p ts TNil) as [E _]; [constructor|done|]. rewrite E. split; [done|by inversion 1].
    + rewrite leaf_leaf. split; [intros [? ?]; by constructor|by inversion 1].
    + destruct (leaf_other p ts (TObj m')) as [E _]; [done..|]. rewrite E. split; [done|by inversion 1].
    + destruct (leaf_other p ts (TArr l')) as [E _]; [done..|]. rewrite E. split; [done|by inversion 1].
  - inversion Ha as [| |? ND HF|]; subst. destruct b as [|q ts'|m'|l'].
    + rewrite enc_obj, enc_nil. split; [done|by inversion 1].
    + destruct (leaf_other q ts' (TObj m)) as [_ E]; [done..|]. rewrite E. split; [done|by inversion 1].
    + inversion Hb as [| |? ND' HF'|]; subst. rewrite !enc_obj, deep_eq_obj. rewrite !map_length.
      assert (Hgo : (forall k v, (k, v) ∈ map (fun kv => (fst kv, enc (snd kv))) m ->
          exists w, alookup k (map (fun kv => (fst kv, enc (snd kv))) m') = Some w ∧ deep_eq v w = true)
        <-> (forall k v, (k, v) ∈ m -> exists w, alookup k m' = Some w ∧ agree R v w)).
      { rewrite Forall_forall in IH, HF, HF'. split.
        - intros H k v Hin.
          destruct (H k (enc v)) as (w & E & D).
          { apply elem_of_list_fmap. by exists (k, v). }
          rewrite alookup_map in E. apply fmap_Some in E as (w' & E & ->).
          exists w'. split; [done|]. pose proof (alookup_Some_in _ _ _ E) as Hin'.
          by apply (IH (k, v) Hin w' (HF (k, v) Hin) (HF' (k, w') Hin')).
        - intros H k v Hin. apply elem_of_list_fmap in Hin as ([k' v'] & [= -> ->] & Hin).
          destruct (H k' v' Hin) as (w & E & D). exists (enc w). rewrite alookup_map, E. split; [done|].
          pose proof (alookup_Some_in _ _ _ E) as Hin'.
          by apply (IH (k', v') Hin w (HF (k', v') Hin) (HF' (k', w) Hin')). }
      rewrite Hgo. split.
      * intros [Hlen H]. destruct (obj_match (agree R) m m' ND ND' Hlen H) as (m1 & HP & HF1).
        symmetry in HP. destruct (Forall2_perm_l _ _ _ _ HF1 HP) as (m2 & HP2 & HF2).
        by apply (ag_obj _ _ m2).
      * inversion 1 as [| | |? m1 ? HP HF1]; subst. by apply (obj_match_inv (agree R) m m1 m').
    + rewrite enc_obj, enc_arr. split; [done|by inversion 1].
  - inversion Ha as [| | |? HF]; subst. destruct b as [|q ts'|m'|l'].
    + rewrite enc_arr, enc_nil. split; [done|by inversion 1].
    + destruct (leaf_other q ts' (TArr l)) as [_ E]; [done..|]. rewrite E. split; [done|by inversion 1].
    + rewrite enc_obj, enc_arr. split; [done|by inversion 1].
    + inversion Hb as [| | |? HF']; subst. rewrite !enc_arr, deep_eq_arr. rewrite Forall2_fmap.
      assert (Hgo : Forall2 (fun a b => deep_eq (enc a) (enc b) = true) l l' <-> Forall2 (agree R) l l').
      { clear Ha Hb. revert l' HF'. induction l as [|x l IHl]; intros l' HF'.
        - split; inversion 1; subst; constructor.
        - inversion IH; inversion HF; subst. split; inversion 1; subst; inversion HF'; subst;
            (constructor; [naive_solver|by apply IHl]). }
      unfold fmap in Hgo. split.
      * intros H. constructor. by apply Hgo.
      * inversion 1; subst. by apply Hgo.
Qed.
End enc.

Lemma prim_deep_eq p q : deep_eq (json_of_prim p) (json_of_prim q) = true <-> prim_eq p q.
Proof.
  destruct p, q; simpl; try done.
  - apply bool_decide_eq_true.
  - apply eqb_true_iff.
Qed.

(** *** With timestamps *)
Definition float_ts_eq (x y : Z) : Prop := f64_eq (f64_of_Z x) (f64_of_Z y) = true.

Lemma compat_image_not_num t f : compat_image t ≠ JNum f.
Proof. by destruct t. Qed.
Lemma deep_eq_compat a b :
  wf a -> wf b -> deep_eq (compat_image a) (compat_image b) = true <-> agree float_ts_eq a b.
Proof.
  apply (deep_eq_enc compat_image float_ts_eq); try done.
  - intros p ts q ts'. cbn [compat_image]. unfold json_of_leaf. rewrite deep_eq_obj.
    split.
    + intros [_ H]. split.
      * destruct (H "value" (json_of_prim p)) as (w & E & D); [constructor|]. injection E as <-.
        by apply prim_deep_eq.
      * destruct (H "timestamp" (JNum (f64_of_Z ts))) as (w & E & D); [repeat constructor|].
        injection E as <-. exact D.
    + intros [H1 H2]. split; [done|]. intros k v [[=-> ->]|Hin]%elem_of_cons.
      * eexists. split; [done|]. by apply prim_deep_eq.
      * apply elem_of_list_singleton in Hin as [=-> ->]. eexists. split; [done|]. exact H2.
  - intros p ts t Hwf Ht. destruct t as [|q ts'|m|l]; [done|by edestruct Ht| |done].
    inversion Hwf as [| |? ND _|]; subst. cbn [compat_image]. unfold json_of_leaf. split.
    + apply not_true_is_false. rewrite deep_eq_obj. intros [_ H].
      destruct (H "timestamp" (JNum (f64_of_Z ts))) as (w & E & D); [repeat constructor|].
      rewrite alookup_map in E. apply fmap_Some in E as (t0 & _ & ->). by destruct t0.
    + apply not_true_is_false. rewrite deep_eq_obj, map_length. intros [Hlen H].
      assert (Hk : forall k, k ∈ akeys m -> k = "value").
      { intros k Hin. apply elem_of_list_fmap in Hin as ([k' v] & -> & Hin). simpl.
        destruct (H k' (compat_image v)) as (w & E & D).
        { apply elem_of_list_fmap. by exists (k', v). }
        simpl in E. case_decide as K1; [done|]. case_decide as K2; [|done].
        injection E as <-. destruct v; done. }
      destruct m as [|[k1 v1] [|[k2 v2] m]]; try done.
      simpl in ND. apply NoDup_cons in ND as [ND _]. apply ND.
      rewrite (Hk k1) by (simpl; set_solver). rewrite (Hk k2) by (simpl; set_solver). set_solver.
Qed.

Lemma agree_mono (P Q : Z -> Z -> Prop) (S : Z -> Prop) a b :
  (forall x y, S x -> S y -> P x y -> Q x y) ->
  every_stamp S a -> every_stamp S b -> agree P a b -> agree Q a b.
Proof.
  intros HPQ. revert b. induction a as [|p ts|m IH|l IH] using tson_ind'; intros b Ha Hb H.
  - inversion H; subst. constructor.
  - inversion H; subst. inversion Ha; inversion Hb; subst. constructor; auto.
  - inversion H as [| | |? m1 m2 HP HF]; subst.
    apply (ag_obj _ _ m1); [done|].
    inversion Ha as [| |? HFa|]; subst. inversion Hb as [| |? HFb|]; subst. rewrite HP in IH, HFa.
    clear HP Ha Hb H. induction HF as [|x y m1 m2 [E Hxy] HF IHF]; constructor;
      inversion IH; inversion HFa; inversion HFb; subst; auto.
  - inversion H as [| |? l2 HF|]; subst. constructor.
    inversion Ha as [| | |? HFa]; subst. inversion Hb as [| | |? HFb]; subst. clear Ha Hb H.
    induction HF as [|x y m1 m2 Hxy HF IHF]; constructor;
      inversion IH; inversion HFa; inversion HFb; subst; auto.
Qed.

Lemma equal_spec a b :
  wf a -> wf b -> encodable a = true -> encodable b = true ->
  every_stamp exact_int a -> every_stamp exact_int b ->
  exists r, equal a b = Ok r ∧ (r = true <-> same_content a b).
Proof.
  intros Wa Wb Ea Eb Sa Sb. unfold equal, to_compatible. rewrite Ea, Eb. simpl.
  eexists. split; [done|]. rewrite deep_eq_compat by done. unfold same_content. split.
  - apply (agree_mono _ _ exact_int); auto. intros x y Hx Hy. by apply f64_of_Z_eq.
  - apply (agree_mono _ _ exact_int); auto. intros x y Hx Hy. by apply f64_of_Z_eq.
Qed.
Lemma equal_general a b :
  wf a -> wf b -> encodable a = true -> encodable b = true ->
  exists r, equal a b = Ok r ∧
    (r = true <-> agree (fun x y => f64_eq (f64_of_Z x) (f64_of_Z y) = true) a b).
Proof.
  intros Wa Wb Ea Eb. unfold equal, to_compatible. rewrite Ea, Eb. simpl.
  eexists. split; [done|]. by rewrite deep_eq_compat.
Qed.
Lemma equal_unencodable a b : encodable a = false ∨ encodable b = false -> equal a b = Err.
Proof.
  unfold equal, to_compatible. intros [->| ->]; [done|]. by destruct (encodable a).
Qed.

(** *** Without timestamps *)
Lemma check_leaf_image m : check_leaf (map (fun kv => (fst kv, compat_image (snd kv))) m) = None.
Proof.
  unfold check_leaf. case_decide; [|done]. rewrite !alookup_map.
  destruct (alookup "value" m) as [x|]; simpl; [|done]. destruct (alookup "timestamp" m) as [t|]; simpl; [|done].
  by destruct t.
Qed.
Lemma check_leaf_leaf p ts :
  check_leaf [("value", json_of_prim p); ("timestamp", JNum (f64_of_Z ts))]
  = Some (json_of_prim p, f64_to_int64 (f64_of_Z ts)).
Proof. reflexivity. Qed.

Lemma remove_timestamp_plain t : container t -> remove_timestamp (compat_image t) = plain_json t.
Proof.
  induction t as [|p ts|m IH|l IH] using tson_ind'; intros Hc; [by destruct Hc as [[? ?]|[? ?]]..| |].
  - cbn [compat_image remove_timestamp plain_json]. f_equal. rewrite map_map. clear Hc.
    induction IH as [|[k t] m Ht IH IHm]; [done|]. simpl. f_equal; [|done]. f_equal. simpl in Ht.
    destruct t as [|p ts|m'|l'].
    + done.
    + done.
    + cbn [compat_image]. rewrite check_leaf_image. apply Ht. left. eauto.
    + apply Ht. right. eauto.
  - cbn [compat_image remove_timestamp plain_json]. f_equal. rewrite map_map. clear Hc.
    induction IH as [|t l Ht IH IHm]; [done|]. simpl. f_equal; [|done].
    destruct t as [|p ts|m'|l'].
    + done.
    + done.
    + cbn [compat_image]. rewrite check_leaf_image. apply Ht. left. eauto.
    + apply Ht. right. eauto.
Qed.
Lemma deep_eq_plain a b :
  wf a -> wf b -> deep_eq (plain_json a) (plain_json b) = true <-> same_values a b.
Proof.
  apply (deep_eq_enc plain_json (fun _ _ => True)); try done.
  - intros p ts q ts'. cbn [plain_json]. rewrite prim_deep_eq. tauto.
  - intros p ts t _ Ht. destruct t as [|q ts'|m|l]; [| by edestruct Ht| |]; by destruct p.
Qed.
Lemma equal_wt_spec a b :
  wf a -> wf b -> container a -> container b -> encodable a = true -> encodable b = true ->
  exists r, equal_without_timestamp a b = Ok r ∧ (r = true <-> same_values a b).
Proof.
  intros Wa Wb Ca Cb Ea Eb. unfold equal_without_timestamp, to_json, to_compatible. rewrite Ea, Eb.
  eexists. split; [done|]. rewrite !remove_timestamp_plain by done. by apply deep_eq_plain.
Qed.
Lemma equal_wt_unencodable a b :
  encodable a = false -> encodable b = false -> equal_without_timestamp a b = Ok true.
Proof. intros Ea Eb. unfold equal_without_timestamp, to_json, to_compatible. by rewrite Ea, Eb. Qed.
Lemma equal_wt_leaf_spec p q ts ts' :
  prim_encodable p = true -> prim_encodable q = true -> exact_int ts -> exact_int ts' ->
  equal_without_timestamp (TLeaf p ts) (TLeaf q ts') = Ok true <-> prim_eq p q ∧ ts = ts'.
Proof.
  intros Ep Eq Ht Ht'. unfold equal_without_timestamp, to_json, to_compatible. cbn [encodable].
  rewrite Ep, Eq. cbn [compat_image]. unfold json_of_leaf.
  assert (E : forall p ts, remove_timestamp (JObj [("value", json_of_prim p); ("timestamp", JNum (f64_of_Z ts))])
     = compat_image (TLeaf p ts)) by (intros [] ?; reflexivity).
  rewrite !E. rewrite <- f64_of_Z_eq by done.
  transitivity (deep_eq (compat_image (TLeaf p ts)) (compat_image (TLeaf q ts')) = true).
  { split; [by intros [=]|by intros ->]. }
  rewrite deep_eq_compat by constructor. split; [by inversion 1|]. intros [? ?]. by constructor.
Qed.
Lemma leaf_equals_object p ts :
  prim_encodable p = true -> exact_int ts ->
  equal_without_timestamp (TLeaf p ts)
    (TObj [("value", TLeaf p 0); ("timestamp", TLeaf (PNum (f64_of_Z ts)) 0)]) = Ok true.
Proof.
  intros Ep Ht. unfold equal_without_timestamp, to_json, to_compatible. cbn [encodable forallb snd prim_encodable].
  rewrite Ep. replace (f64_finite (f64_of_Z ts)) with true.
  2:{ unfold exact_int in Ht. symmetry.
      destruct (decide (ts = 2 ^ 53)) as [->|H1]; [vm_compute; reflexivity|].
      destruct (decide (ts = - 2 ^ 53)) as [->|H2]; [vm_compute; reflexivity|].
      destruct ts as [|m|m]; [reflexivity| |]; unfold f64_of_Z, binary_normalize.
      - destruct (normalize_small false m) as (m' & e & -> & He & Hm); [lia|done].
      - destruct (normalize_small true m) as (m' & e & -> & He & Hm); [lia|done]. }
  cbn [andb]. f_equal. rewrite (remove_timestamp_plain (TObj _)) by (left; eauto).
  assert (E : remove_timestamp (compat_image (TLeaf p ts))
     = JObj [("value", json_of_prim p); ("timestamp", JNum (f64_of_Z ts))]) by (destruct p; reflexivity).
  rewrite E. apply deep_eq_obj. split; [done|]. intros k v [[=-> ->]|Hin]%elem_of_cons.
  - eexists. split; [done|]. apply prim_deep_eq. destruct p; simpl; auto.
    apply f64_eq_refl. by apply f64_finite_not_nan.
  - apply elem_of_list_singleton in Hin as [=-> ->]. eexists. split; [done|].
    apply f64_of_Z_eq; done.
Qed.

(** ** Compatible TSON *)
Lemma from_compatible_obj m : from_compatible (JObj m) =
      match check_leaf m with
      | Some (JStr s, ts) => Ok (TLeaf (PStr s) ts)
      | Some (JNum f, ts) => Ok (TLeaf (PNum f) ts)
      | Some (JBool b, ts) => Ok (TLeaf (PBool b) ts)
      | Some (_, _) => Ok TNil
      | None =>
          do ms <- (fix go (m : list (string * json)) : res (list (string * tson)) :=
             match m with
             | [] => Ok []
             | (k, v) :: m' => do t <- from_compatible v; do ts <- go m'; Ok ((k, t) :: ts)
             end) m;
          Ok (TObj ms)
      end.
Proof. reflexivity. Qed.

Definition from_members : list (string * json) -> res (list (string * tson)) :=
  fix go m := match m with
             | [] => Ok []
             | (k, v) :: m' => do t <- from_compatible v; do ts <- go m'; Ok ((k, t) :: ts)
             end.
Definition from_elems : list json -> res (list tson) :=
  fix go l := match l with
         | [] => Ok []
         | v :: l' => do t <- from_compatible v; do ts <- go l'; Ok (t :: ts)
         end.
Lemma from_compatible_obj_none m :
  check_leaf m = None -> from_compatible (JObj m) = do ms <- from_members m; Ok (TObj ms).
Proof. intros H. rewrite from_compatible_obj, H. reflexivity. Qed.
Lemma from_compatible_arr l : from_compatible (JArr l) = do ls <- from_elems l; Ok (TArr ls).
Proof. reflexivity. Qed.

Lemma from_compatible_image t :
  null_free t -> every_stamp exact_int t -> from_compatible (compat_image t) = Ok t.
Proof.
  induction t as [|p ts|m IH|l IH] using tson_ind'; intros HN HS.
  - inversion HN.
  - inversion HS; subst. cbn [compat_image]. unfold json_of_leaf. rewrite from_compatible_obj.
    rewrite check_leaf_leaf, f64_int_roundtrip by done. by destruct p.
  - inversion HN as [|? HNF|]; inversion HS as [| |? HSF|]; subst. cbn [compat_image].
    rewrite from_compatible_obj_none by apply check_leaf_image.
    assert (E : from_members (map (fun kv => (fst kv, compat_image (snd kv))) m) = Ok m).
    { clear HN HS. induction m as [|[k v] m IHm]; [done|]. inversion IH; inversion HNF; inversion HSF; subst.
      simpl in *. rewrite H1 by done. simpl. by rewrite IHm. }
    by rewrite E.
  - inversion HN as [| |? HNF]; inversion HS as [| | |? HSF]; subst. cbn [compat_image].
    rewrite from_compatible_arr.
    assert (E : from_elems (map compat_image l) = Ok l).
    { clear HN HS. induction l as [|v l IHm]; [done|]. inversion IH; inversion HNF; inversion HSF; subst.
      simpl in *. rewrite H1 by done. simpl. by rewrite IHm. }
    by rewrite E.
Qed.

Lemma alookup_same {V W} (R : V -> W -> Prop) (m m1 : list (string * V)) (m2 : list (string * W)) k :
  NoDup (akeys m) -> m ≡ₚ m1 ->
  Forall2 (fun a b => fst a = fst b ∧ R (snd a) (snd b)) m1 m2 ->
  match alookup k m with
  | Some v => exists w, alookup k m2 = Some w ∧ R v w
  | None => alookup k m2 = None
  end.
Proof.
  intros ND HP HF.
  assert (Ek : akeys m1 = akeys m2).
  { clear -HF. unfold akeys. induction HF as [|a b m1 m2 [E _] HF IH]; simpl; congruence. }
  assert (ND2 : NoDup (akeys m2)) by (rewrite <- Ek; unfold akeys; by rewrite <- HP).
  destruct (alookup k m) as [v|] eqn:E.
  - apply alookup_Some_in in E. destruct (obj_match_inv R m m1 m2 ND2 HP HF) as [_ H]. by apply H.
  - apply alookup_None_iff. apply alookup_None_iff in E. rewrite <- Ek. unfold akeys. by rewrite <- HP.
Qed.

Lemma check_leaf_same m m1 m2 :
  NoDup (akeys m) -> m ≡ₚ m1 ->
  Forall2 (fun a b => fst a = fst b ∧ same_json (snd a) (snd b)) m1 m2 ->
  match check_leaf m with
  | Some (v, ts) => exists v', check_leaf m2 = Some (v', ts) ∧ same_json v v'
  | None => check_leaf m2 = None
  end.
Proof.
  intros ND HP HF. unfold check_leaf.
  assert (El : length m = length m2) by (rewrite HP; by apply Forall2_length in HF).
  rewrite El. case_decide; [|done].
  pose proof (alookup_same same_json m m1 m2 "value" ND HP HF) as Hv.
  pose proof (alookup_same same_json m m1 m2 "timestamp" ND HP HF) as Ht.
  destruct (alookup "value" m) as [v|].
  - destruct Hv as (v' & -> & Hv). destruct (alookup "timestamp" m) as [t|].
    + destruct Ht as (t' & -> & Ht). destruct Ht; eauto.
    + by rewrite Ht.
  - by rewrite Hv.
Qed.

Lemma from_compatible_same j j' t :
  same_json j j' -> jwf j -> from_compatible j = Ok t ->
  exists t', from_compatible j' = Ok t' ∧ same_doc t t'.
Proof.
  revert j' t. induction j as [|b|f|s|l IH|m IH] using json_ind'; intros j' t HS HW HE; try done.
  - inversion HS as [| | | |? l' HF|]; subst. inversion HW as [| | | |? HWF|]; subst.
    rewrite from_compatible_arr in HE |- *.
    destruct (from_elems l) as [ls| |] eqn:E; try done. injection HE as <-.
    assert (G : exists ls', from_elems l' = Ok ls' ∧ Forall2 same_doc ls ls').
    { clear HS HW. revert ls E HWF IH. induction HF as [|a b l l' Hab HF IHF]; intros ls E HWF IH.
      - injection E as <-. by exists [].
      - inversion HWF; inversion IH; subst. simpl in E.
        destruct (from_compatible a) as [ta| |] eqn:Ea; simpl in E; try done.
        destruct (from_elems l) as [ts| |] eqn:El; simpl in E; try done. injection E as <-.
        destruct (H5 b ta Hab H1 eq_refl) as (tb & Eb & Hs). destruct (IHF ts) as (ls' & E' & HF'); auto.
        exists (tb :: ls'). simpl. rewrite Eb. simpl. rewrite E'. split; [done|by constructor]. }
    destruct G as (ls' & -> & HF'). exists (TArr ls'). split; [done|by constructor].
  - inversion HS as [| | | | |? m1 m2 HP HF]; subst. inversion HW as [| | | | |? ND HWF]; subst.
    pose proof (check_leaf_same m m1 m2 ND HP HF) as Hc.
    destruct (check_leaf m) as [[v ts]|] eqn:Ec.
    + destruct Hc as (v' & Ec' & Hv). rewrite from_compatible_obj, Ec in HE.
      rewrite from_compatible_obj, Ec'. exists t. split; [|apply same_doc_refl].
      destruct Hv; done.
    + rewrite from_compatible_obj_none in HE by done. rewrite from_compatible_obj_none by done.
      destruct (from_members m) as [ms| |] eqn:E; try done. injection HE as <-.
      assert (G1 : exists ms1, from_members m1 = Ok ms1 ∧ ms ≡ₚ ms1).
      { clear -HP E. revert ms E. induction HP as [|[k v] m m1 HP IH|[k v] [k2 v2] m|m m1 m2 HP1 IH1 HP2 IH2];
          intros ms E.
        - eauto.
        - simpl in E |- *. destruct (from_compatible v) as [tv| |]; simpl in E |- *; try done.
          destruct (from_members m) as [ts| |] eqn:El; simpl in E; try done. injection E as <-.
          destruct (IH ts eq_refl) as (ms1 & -> & HP'). eexists. split; [done|by constructor].
        - simpl in E |- *. destruct (from_compatible v) as [tv| |]; simpl in E |- *; try done.
          + destruct (from_compatible v2) as [tv2| |]; simpl in E |- *; try done.
            destruct (from_members m) as [ts| |] eqn:El; simpl in E |- *; try done. injection E as <-.
            eexists. split; [done|constructor].
          + by destruct (from_compatible v2).
          + by destruct (from_compatible v2).
        - destruct (IH1 _ E) as (ms1 & E1 & P1). destruct (IH2 _ E1) as (ms2 & E2 & P2).
          exists ms2. split; [done|by etrans]. }
      destruct G1 as (ms1 & E1 & HP1). rewrite HP in HWF, IH.
      assert (G2 : exists ms2, from_members m2 = Ok ms2 ∧
         Forall2 (fun a b => fst a = fst b ∧ same_doc (snd a) (snd b)) ms1 ms2).
      { clear -HF E1 HWF IH. revert ms1 E1 HWF IH.
        induction HF as [|[k a] [k' b] m1 m2 [Ek Hab] HF IHF]; intros ms1 E1 HWF IH.
        - injection E1 as <-. by exists [].
        - inversion HWF; inversion IH; subst. simpl in *. subst.
          destruct (from_compatible a) as [ta| |] eqn:Ea; simpl in E1; try done.
          destruct (from_members m1) as [ts| |] eqn:El; simpl in E1; try done. injection E1 as <-.
          destruct (H5 b ta Hab H1 eq_refl) as (tb & Eb & Hs). destruct (IHF ts) as (ls' & E' & HF'); auto.
          exists ((k', tb) :: ls'). rewrite Eb. simpl. rewrite E'. split; [done|by constructor]. }
      destruct G2 as (ms2 & -> & HF2). exists (TObj ms2). split; [done|]. by apply (sd_obj _ ms1).
Qed.

Lemma json_of_prim_wf p : jwf (json_of_prim p).
Proof. destruct p; constructor. Qed.
Lemma compat_image_wf t : wf t -> jwf (compat_image t).
Proof.
  induction t as [|p ts|m IH|l IH] using tson_ind'; intros HW.
  - constructor.
  - apply jwf_obj; [simpl; repeat (constructor; try set_solver)|].
    repeat constructor. apply json_of_prim_wf.
  - inversion HW as [| |? ND HF|]; subst. cbn [compat_image]. constructor; [by rewrite akeys_map|].
    apply Forall_fmap. clear HW ND. induction IH; constructor; inversion HF; subst; auto.
  - inversion HW as [| | |? HF]; subst. cbn [compat_image]. constructor.
    apply Forall_fmap. clear HW. induction IH; constructor; inversion HF; subst; auto.
Qed.

Lemma compat_roundtrip t j j' :
  wf t -> null_free t -> every_stamp exact_int t ->
  to_compatible t = Ok j -> same_json j j' ->
  exists t', from_compatible j' = Ok t' ∧ same_doc t' t.
Proof.
  unfold to_compatible. intros HW HN HS HE HJ. destruct (encodable t); [|done]. injection HE as <-.
  destruct (from_compatible_same _ _ t HJ (compat_image_wf _ HW) (from_compatible_image _ HN HS)) as (t' & E & H).
  exists t'. split; [done|by apply same_doc_sym].
Qed.

(** ** Plain JSON *)
Fixpoint stamp_json (j : json) : tson :=
  match j with
  | JNull => TNil
  | JBool b => TLeaf (PBool b) default_timestamp
  | JNum f => TLeaf (PNum f) default_timestamp
  | JStr s => TLeaf (PStr s) default_timestamp
  | JArr l => TArr (map stamp_json l)
  | JObj m => TObj (map (fun kv => (fst kv, stamp_json (snd kv))) m)
  end.
(** What [addTimestamp] puts in place of a child. *)
Definition add_child (v : json) : json :=
  match v with
  | JStr s => json_of_leaf (PStr s) default_timestamp
  | JNum f => json_of_leaf (PNum f) default_timestamp
  | JBool b => json_of_leaf (PBool b) default_timestamp
  | _ => add_timestamp v
  end.
Lemma add_timestamp_obj m :
  add_timestamp (JObj m) = JObj (map (fun kv => (fst kv, add_child (snd kv))) m).
Proof. reflexivity. Qed.
Lemma add_timestamp_arr l : add_timestamp (JArr l) = JArr (map add_child l).
Proof. reflexivity. Qed.
Lemma check_leaf_added m : check_leaf (map (fun kv => (fst kv, add_child (snd kv))) m) = None.
Proof.
  unfold check_leaf. case_decide; [|done]. rewrite !alookup_map.
  destruct (alookup "value" m) as [x|]; simpl; [|done]. destruct (alookup "timestamp" m) as [t|]; simpl; [|done].
  by destruct t.
Qed.

Lemma from_add_child j :
  from_compatible (add_child j) = if jnull_free j then Ok (stamp_json j) else Panic.
Proof.
  induction j as [|b|f|s|l IH|m IH] using json_ind'; try reflexivity.
  - change (add_child (JArr l)) with (add_timestamp (JArr l)). rewrite add_timestamp_arr.
    rewrite from_compatible_arr. cbn [jnull_free stamp_json].
    assert (E : from_elems (map add_child l) = if forallb jnull_free l then Ok (map stamp_json l) else Panic).
    { induction IH as [|v l Hv IH IHl]; [done|]. simpl. rewrite Hv.
      destruct (jnull_free v); simpl; [|done]. rewrite IHl. by destruct (forallb jnull_free l). }
    rewrite E. by destruct (forallb jnull_free l).
  - change (add_child (JObj m)) with (add_timestamp (JObj m)). rewrite add_timestamp_obj.
    rewrite from_compatible_obj_none by apply check_leaf_added. cbn [jnull_free stamp_json].
    assert (E : from_members (map (fun kv => (fst kv, add_child (snd kv))) m)
      = if forallb (fun kv => jnull_free (snd kv)) m
        then Ok (map (fun kv => (fst kv, stamp_json (snd kv))) m) else Panic).
    { induction IH as [|[k v] l Hv IH IHl]; [done|]. simpl in *. rewrite Hv.
      destruct (jnull_free v); simpl; [|done]. rewrite IHl.
      by destruct (forallb (fun kv => jnull_free (snd kv)) l). }
    rewrite E. by destruct (forallb (fun kv => jnull_free (snd kv)) m).
Qed.
Lemma add_child_container j : jcontainer j -> add_timestamp j = add_child j.
Proof. by intros [[m ->]|[l ->]]. Qed.
Lemma encodable_add_child j : json_encodable (add_child j) = json_encodable j.
Proof.
  induction j as [|b|f|s|l IH|m IH] using json_ind'; try reflexivity.
  - simpl. by rewrite andb_true_r.
  - change (add_child (JArr l)) with (add_timestamp (JArr l)). rewrite add_timestamp_arr.
    cbn [json_encodable]. induction IH as [|v l Hv IH IHl]; [done|]. simpl. by rewrite Hv, IHl.
  - change (add_child (JObj m)) with (add_timestamp (JObj m)). rewrite add_timestamp_obj.
    cbn [json_encodable]. induction IH as [|v l Hv IH IHl]; [done|]. simpl. by rewrite Hv, IHl.
Qed.
Lemma from_json_spec j :
  jcontainer j -> json_encodable j = true ->
  snd (from_json j) = if jnull_free j then Ok (stamp_json j) else Panic.
Proof.
  intros Hc He. unfold from_json. simpl. rewrite add_child_container by done.
  rewrite encodable_add_child, He. apply from_add_child.
Qed.
Lemma from_json_scalar j : ~ jcontainer j -> json_encodable j = true -> snd (from_json j) = Panic.
Proof.
  intros Hc He. destruct j as [|b|f|s|l|m]; try done.
  - unfold from_json. simpl in *. by rewrite He.
  - exfalso. apply Hc. right. eauto.
  - exfalso. apply Hc. left. eauto.
Qed.

Lemma plain_stamp j : plain_json (stamp_json j) = j.
Proof.
  induction j as [|b|f|s|l IH|m IH] using json_ind'; try reflexivity.
  - cbn [stamp_json plain_json]. f_equal. rewrite map_map. induction IH; simpl; congruence.
  - cbn [stamp_json plain_json]. f_equal. rewrite map_map.
    induction IH as [|[k v] m Hv IH IHm]; simpl in *; congruence.
Qed.
Lemma encodable_stamp j : encodable (stamp_json j) = json_encodable j.
Proof.
  induction j as [|b|f|s|l IH|m IH] using json_ind'; try reflexivity.
  - cbn [stamp_json encodable json_encodable]. induction IH; simpl; congruence.
  - cbn [stamp_json encodable json_encodable].
    induction IH as [|[k v] m Hv IH IHm]; simpl in *; congruence.
Qed.
Lemma stamp_default j : every_stamp (fun ts => ts = default_timestamp) (stamp_json j).
Proof.
  induction j as [|b|f|s|l IH|m IH] using json_ind'; try (by constructor).
  - cbn [stamp_json]. constructor. by apply Forall_fmap.
  - cbn [stamp_json]. constructor. apply Forall_fmap. eapply Forall_impl; [exact IH|]. done.
Qed.
Lemma json_roundtrip j :
  jcontainer j -> json_encodable j = true -> jnull_free j = true ->
  exists t, snd (from_json j) = Ok t ∧ to_json t = j ∧ every_stamp (fun ts => ts = default_timestamp) t.
Proof.
  intros Hc He Hn. exists (stamp_json j). split; [by rewrite from_json_spec, Hn|].
  split; [|apply stamp_default]. unfold to_json, to_compatible. rewrite encodable_stamp, He.
  rewrite remove_timestamp_plain; [apply plain_stamp|].
  destruct Hc as [[m ->]|[l ->]]; [left|right]; eauto.
Qed.
Lemma from_json_null_panics j :
  jcontainer j -> json_encodable j = true -> jnull_free j = false -> snd (from_json j) = Panic.
Proof. intros Hc He Hn. by rewrite from_json_spec, Hn. Qed.

Lemma add_timestamp_changes j : scalar_inside j = true -> add_timestamp j ≠ j.
Proof.
  induction j as [|b|f|s|l IH|m IH] using json_ind'; try done.
  - cbn [scalar_inside]. intros H. rewrite add_timestamp_arr. intros [=E].
    apply existsb_exists in H as (v & Hin & Hv). apply elem_of_list_In in Hin.
    rewrite Forall_forall in IH.
    assert (Ev : add_child v = v).
    { apply elem_of_list_lookup in Hin as [i Hi]. 
      assert (Hj : map add_child l !! i = Some (add_child v)) by (by rewrite list_lookup_fmap, Hi).
      rewrite E in Hj. congruence. }
    apply orb_true_iff in Hv as [Hv|Hv].
    + by destruct v.
    + apply (IH v Hin Hv). by destruct v.
  - cbn [scalar_inside]. intros H. rewrite add_timestamp_obj. intros [=E].
    apply existsb_exists in H as ([k v] & Hin & Hv). apply elem_of_list_In in Hin. simpl in Hv.
    rewrite Forall_forall in IH.
    assert (Ev : add_child v = v).
    { apply elem_of_list_lookup in Hin as [i Hi]. 
      assert (Hj : map (fun kv => (fst kv, add_child (snd kv))) m !! i = Some (k, add_child v))
        by (by rewrite list_lookup_fmap, Hi).
      rewrite E in Hj. congruence. }
    apply orb_true_iff in Hv as [Hv|Hv].
    + by destruct v.
    + apply (IH (k, v) Hin Hv). by destruct v.
Qed.
