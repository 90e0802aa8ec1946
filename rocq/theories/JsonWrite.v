(** What is written is read back. *)
From Verif Require Import Base BaseSpec BaseLemmas BaseSpecLemmas F64 Tson TsonInd Serial TextSpec TsonSpec ConvLemmas MarshalText Heap Patch Bytes BytesSpec BytesLemmas
  Json JsonSpec JsonLemmas JsonChars JsonParse JsonRead.
From Coq Require Import Lia.

(** ** Strings *)
Lemma hex_digit_hex n : (n < 16)%N -> hex (hex_digit n) n.
Proof.
  intros Hn. unfold hex_digit, hex, digit. destruct (N.ltb_spec n 10).
  - left. rewrite N_ascii_embedding by lia. lia.
  - right. split; [lia|]. left. rewrite N_ascii_embedding by lia. lia.
Qed.
Lemma u_escape_text n : (n < 65536)%N -> u_text (u_escape n) n.
Proof.
  intros Hn. unfold u_escape. exists (hex_text 4 n). split; [done|].
  cbn [hex_text String.append].
  assert (E : n = ((n / 16 / 16 / 16) mod 16 * 4096 + (n / 16 / 16) mod 16 * 256 + (n / 16) mod 16 * 16 + n mod 16)%N).
  { rewrite !N.div_div by lia. change (16 * 16)%N with 256%N. change (256 * 16)%N with 4096%N.
    rewrite (N.mod_small (n / 4096)) by (apply N.div_lt_upper_bound; lia).
    assert (H1 : (n / 256 = 16 * (n / 4096) + (n / 256) mod 16)%N).
    { rewrite (N.div_mod' (n / 256) 16) at 1. by rewrite N.div_div by lia. }
    assert (H2 : (n / 16 = 16 * (n / 256) + (n / 16) mod 16)%N).
    { rewrite (N.div_mod' (n / 16) 16) at 1. by rewrite N.div_div by lia. }
    pose proof (N.div_mod' n 16). lia. }
  rewrite E at 5. constructor; apply hex_digit_hex, N.mod_lt; lia.
Qed.
Lemma char_one a : (bv a < 128)%N -> bytes (char_bytes (bv a)) = String a "".
Proof.
  intros H. unfold char_bytes. rewrite decide_True by done. cbn [bytes foldr]. unfold bv. by rewrite ascii_N_embedding.
Qed.
Lemma quote_byte_chars a s v : (bv a < 128)%N -> chars s v -> chars (quote_byte a +++ s) (String a v).
Proof.
  intros Ha Hs. unfold quote_byte.
  assert (Hl : forall e c, In (e, c) escapes -> bv a = c -> chars (String backslash (String (ascii_of_N e) "") +++ s) (String a v)).
  { intros e c Hin Ec. apply bv_of in Ec. rewrite Ec. exact (ch_letter e c s v Hin Hs). }
  destruct (N.eqb_spec (bv a) 34) as [E|N1].
  { cbn [orb]. pose proof (bv_of _ _ E) as Ea. rewrite Ea at 1. apply (Hl 34%N 34%N); [simpl; auto|done]. }
  destruct (N.eqb_spec (bv a) 92) as [E|N2].
  { cbn [orb]. pose proof (bv_of _ _ E) as Ea. rewrite Ea at 1. apply (Hl 92%N 92%N); [simpl; auto|done]. }
  cbn [orb].
  destruct (N.eqb_spec (bv a) 8) as [E|N3]; [apply (Hl 98%N 8%N); [simpl; auto 12|done]|].
  destruct (N.eqb_spec (bv a) 12) as [E|N4]; [apply (Hl 102%N 12%N); [simpl; auto 12|done]|].
  destruct (N.eqb_spec (bv a) 10) as [E|N5]; [apply (Hl 110%N 10%N); [simpl; auto 12|done]|].
  destruct (N.eqb_spec (bv a) 13) as [E|N6]; [apply (Hl 114%N 13%N); [simpl; auto 12|done]|].
  destruct (N.eqb_spec (bv a) 9) as [E|N7]; [apply (Hl 116%N 9%N); [simpl; auto 12|done]|].
  destruct (_ || _) eqn:E.
  - change (String a v) with (String a "" +++ v). rewrite <- (char_one a Ha). apply ch_u; [apply u_escape_text; lia| |done].
    unfold surrogate. lia.
  - rewrite !orb_false_iff, N.ltb_ge in E. apply ch_ascii; [unfold bv in *; lia|done..].
Qed.
Lemma json_chars_form u s : form u -> json_chars (u +++ s) = u +++ json_chars s ∨
  exists r, code_point r ∧ (r < 65536)%N ∧ bytes (utf8_bytes r) = u ∧ json_chars (u +++ s) = u_escape r +++ json_chars s.
Proof.
  destruct 1 as [a b H|a b c H|a b c d H]; cbn [String.append json_chars].
  - destruct (high_first _ _ H). rewrite (proj2 (N.ltb_ge _ _)) by lia. rewrite H. by left.
  - destruct (high_first3 _ _ _ H). rewrite (proj2 (N.ltb_ge _ _)) by lia. rewrite (not_2_3 _ _ _ H), H.
    destruct (_ || _) eqn:E; [|by left]. right. exists (rune_3 a b c).
    destruct (seq3 _ _ _ H) as [Hs1 Hs2]. split; [done|]. split; [|done].
    rewrite orb_true_iff, !N.eqb_eq in E. lia.
  - destruct (high_first4 _ _ _ _ H). rewrite (proj2 (N.ltb_ge _ _)) by lia.
    destruct (not_2_4 _ _ _ _ H) as [Hs2 Hs3]. rewrite Hs2, Hs3, H. by left.
Qed.
Lemma json_chars_chars s : utf8 s -> chars (json_chars s) s.
Proof.
  induction 1 as [|a s Ha _ IH|r s Hr _ IH].
  - constructor.
  - cbn [json_chars]. rewrite (proj2 (N.ltb_lt _ _)) by done. by apply quote_byte_chars.
  - destruct (json_chars_form _ s (utf8_form _ Hr)) as [-> |(r' & Hr' & Hlt & E & ->)]; [by apply ch_utf8|].
    rewrite <- E. replace (bytes (utf8_bytes r')) with (bytes (char_bytes r')).
    + apply ch_u; [by apply u_escape_text| |done]. unfold code_point, surrogate in *. lia.
    + unfold char_bytes. rewrite decide_False; [done|]. unfold code_point in Hr'. lia.
Qed.
Lemma json_string_text s : utf8 s -> string_text (json_string s) s.
Proof. intros H. exists (json_chars s). split; [done|by apply json_chars_chars]. Qed.
Lemma bare_chars s : bare s -> chars s s.
Proof. induction 1; [constructor|by apply ch_ascii|by apply ch_utf8]. Qed.
Lemma bare_utf8 s : bare s -> utf8 s.
Proof. induction 1 as [|a s H| ]; [constructor|constructor; [lia|done]|by constructor]. Qed.
Lemma quoted_text s : bare s -> string_text (quoted s) s.
Proof. intros H. exists s. split; [done|by apply bare_chars]. Qed.

(** ** Numbers *)
Lemma dec_fuel_head fuel n acc a r : (0 < n)%N -> (N.size_nat n < fuel)%nat ->
  dec_text_fuel fuel n acc = String a r -> a ≠ "0"%char.
Proof.
  revert n acc. induction fuel as [|fuel IH]; intros n acc Hn Hf; [lia|]. cbn [dec_text_fuel].
  destruct (N.ltb_spec n 10).
  - intros [= <- _]. rewrite N.mod_small by done. unfold digit_char. intros E%(f_equal N_of_ascii).
    rewrite N_ascii_embedding in E by lia. change (N_of_ascii "0") with 48%N in E. lia.
  - apply IH; [by apply N.div_str_pos; lia|].
    assert (Hs : (N.size_nat (n / 10) < N.size_nat n)%nat); [|lia].
    assert (Hle : (n / 10 <= n / 2)%N) by (apply N.div_le_compat_l; lia).
    rewrite <- N.div2_div in Hle. destruct n as [|p]; [lia|]. 
    assert (Hm : forall x y, (x <= y)%N -> (N.size_nat x <= N.size_nat y)%nat).
    { intros x y Hxy. assert (H2 : (N.of_nat (N.size_nat x) <= N.of_nat (N.size_nat y))%N); [|lia].
      assert (Hsz : forall z, N.of_nat (N.size_nat z) = N.size z).
      { intros [|q]; [done|]. cbn [N.size_nat N.size]. clear. induction q as [q IHq|q IHq|]; cbn [Pos.size_nat Pos.size]; [lia..|done]. }
      rewrite !Hsz. destruct (decide (x = 0%N)) as [->|Hx]; [by destruct y|]. destruct (decide (y = 0%N)) as [->|Hy]; [lia|].
      rewrite !N.size_log2 by done. apply -> N.succ_le_mono. by apply N.log2_le_mono. }
    specialize (Hm _ _ Hle). destruct p; cbn [N.div2 N.size_nat Pos.size_nat] in *; lia.
Qed.
Lemma dec_text_int n : int_lit (dec_text n).
Proof.
  destruct (decide (n = 0%N)) as [->|Hn]; [constructor|]. apply ip_more; [exists n; apply dec_text_digits|].
  intros r E. unfold dec_text in E. by apply dec_fuel_head in E; [|lia|lia].
Qed.
Lemma z_text_number z : number_text (z_text z).
Proof.
  unfold z_text. destruct (z <? 0).
  - replace (String "-" (dec_text (Z.to_N (- z)))) with ("-" +++ dec_text (Z.to_N (- z)) +++ "" +++ "") by (by rewrite !sapp_nil_r).
    constructor; [by right|apply dec_text_int|constructor|constructor].
  - replace (dec_text (Z.to_N z)) with ("" +++ dec_text (Z.to_N z) +++ "" +++ "") by (by rewrite !sapp_nil_r).
    constructor; [by left|apply dec_text_int|constructor|constructor].
Qed.
Lemma z_text_int z : - 2 ^ 63 <= z < 2 ^ 63 -> int_text (z_text z) z.
Proof.
  intros Hz. unfold z_text. destruct (Z.ltb_spec z 0).
  - replace z with (- Z.of_N (Z.to_N (- z))) at 2 by lia. apply it_minus; [apply dec_text_digits|lia].
  - replace z with (Z.of_N (Z.to_N z)) at 2 by lia. apply it_plain; [apply dec_text_digits|lia].
Qed.
Lemma z_text_inj z z' : z_text z = z_text z' -> z = z'.
Proof.
  assert (Hh : forall n r, dec_text n ≠ String "-" r).
  { intros n r E. destruct (dec_text_spec n) as (A & _ & _). rewrite E in A. by cbn in A. }
  unfold z_text. destruct (Z.ltb_spec z 0), (Z.ltb_spec z' 0).
  - intros [= E%dec_text_inj]. lia.
  - intros E. by destruct (Hh (Z.to_N z') (dec_text (Z.to_N (- z)))).
  - intros E. by destruct (Hh (Z.to_N z) (dec_text (Z.to_N (- z')))).
  - intros E%dec_text_inj. lia.
Qed.

(** ** Values *)
Section writing.
Context (T : textlib) (num : f64 -> string).
Fixpoint wtree (w : wjson) : jtree :=
  match w with
  | WNull => JtNull
  | WBool b => JtBool b
  | WNum f => JtNum (num f)
  | WInt z => JtNum (z_text z)
  | WStr s => JtStr s
  | WArr l => JtArr (map wtree l)
  | WObj m => JtObj (map (fun kv => (fst kv, wtree (snd kv))) m)
  end.
(** Numbers and strings can be written. *)
Inductive wkept : wjson -> Prop :=
| wk_null : wkept WNull
| wk_bool b : wkept (WBool b)
| wk_num f : num_kept T num f -> wkept (WNum f)
| wk_int z : wkept (WInt z)
| wk_str s : utf8 s -> wkept (WStr s)
| wk_arr l : Forall wkept l -> wkept (WArr l)
| wk_obj m : Forall (fun kv => utf8 (fst kv) ∧ wkept (snd kv)) m -> wkept (WObj m).
Lemma concat_cons sep (s : string) l : l ≠ [] -> String.concat sep (s :: l) = s +++ sep +++ String.concat sep l.
Proof. by destruct l. Qed.
Lemma elems_sep w0 sep w1 l ts : white w0 -> white w1 -> sep = "," +++ w1 -> l ≠ [] ->
  Forall2 value_text l ts -> forall we, white we -> elems_text (w0 +++ String.concat sep l +++ we) ts.
Proof.
  intros Hw0 Hw1 Hsep Hne HF we Hwe. revert w0 Hw0. induction HF as [|s t l ts Hs HF IH]; intros w0 Hw0; [done|].
  destruct l as [|s' l].
  - inversion HF; subst. cbn [String.concat]. by apply et_one.
  - rewrite concat_cons by done. rewrite Hsep. subst sep.
    replace (w0 +++ (s +++ ("," +++ w1) +++ String.concat ("," +++ w1) (s' :: l)) +++ we)
      with (w0 +++ s +++ "" +++ "," +++ (w1 +++ String.concat ("," +++ w1) (s' :: l) +++ we)) by (by rewrite !sapp_assoc).
    apply et_more; [done|done|constructor|]. by apply IH.
Qed.
Lemma members_sep l ms : l ≠ [] ->
  Forall2 (fun s kt => exists k v, s = k +++ ":" +++ v ∧ string_text k (fst kt) ∧ value_text v (snd kt)) l ms ->
  members_text (String.concat "," l) ms.
Proof.
  intros Hne HF. induction HF as [|s [n t] l ms (k & v & -> & Hk & Hv) HF IH]; [done|]. cbn [fst snd] in *.
  destruct l as [|s' l].
  - inversion HF; subst. cbn [String.concat].
    replace (k +++ ":" +++ v) with ("" +++ k +++ "" +++ ":" +++ "" +++ v +++ "") by (rewrite sapp_nil_r; done).
    apply mt_one; try done; constructor.
  - rewrite concat_cons by done.
    replace ((k +++ ":" +++ v) +++ "," +++ String.concat "," (s' :: l))
      with ("" +++ k +++ "" +++ ":" +++ "" +++ v +++ "" +++ "," +++ String.concat "," (s' :: l)) by (rewrite !sapp_assoc; done).
    apply mt_more; try done; [constructor..|]. by apply IH.
Qed.
Lemma wtext_value w : wkept w -> value_text (wtext num w) (wtree w).
Proof.
  induction w as [|b|f|z|s|l IH|m IH] using wjson_ind'; intros HK; cbn [wtext wtree].
  - constructor.
  - destruct b; constructor.
  - inversion HK as [| |? (_ & _ & H & _)| | | |]; subst. by constructor.
  - constructor. apply z_text_number.
  - inversion HK as [| | | |? H| |]; subst. constructor. by apply json_string_text.
  - inversion HK as [| | | | |? HF|]; subst. destruct l as [|x l]; [exact (vt_arr_empty "" wh_nil)|].
    apply vt_arr. remember (x :: l) as l' eqn:E. assert (Hne : l' ≠ []) by (by subst). clear E x l HK.
    rewrite <- (sapp_nil_r (String.concat _ _)). apply (elems_sep "" "," "" _ _ wh_nil wh_nil eq_refl); [by destruct l'| |constructor].
    clear Hne. induction l' as [|x l IHl]; cbn [map]; [constructor|]. inversion IH; subst. inversion HF; subst. constructor; auto.
  - inversion HK as [| | | | | |? HF]; subst. destruct m as [|x m]; [exact (vt_obj_empty "" wh_nil)|].
    apply vt_obj. remember (x :: m) as m' eqn:E. assert (Hne : m' ≠ []) by (by subst). clear E x m HK.
    apply members_sep; [by destruct m'|].
    clear Hne. induction m' as [|[k x] m IHl]; cbn [map]; [constructor|]. inversion IH; subst. inversion HF as [|? ? [Hk Hx]]; subst. constructor; [|auto].
    cbn [fst snd] in *. exists (json_string k), (wtext num x). split; [done|]. split; [by apply json_string_text|auto].
Qed.
(** Decoding. *)
Inductive wread : wjson -> Prop :=
| wr_null : wread WNull
| wr_bool b : wread (WBool b)
| wr_num f : num_kept T num f -> wread (WNum f)
| wr_int z : int_kept T z -> wread (WInt z)
| wr_str s : wread (WStr s)
| wr_arr l : Forall wread l -> wread (WArr l)
| wr_obj m : NoDup (map fst m) -> Forall (fun kv => wread (snd kv)) m -> wread (WObj m).
Lemma final_nodup {A} (m : list (string * A)) : NoDup (map fst m) -> final_members m m.
Proof.
  intros HN. split.
  - induction m as [|[k v] m IH]; [done|]. cbn [map fst firsts] in *. apply NoDup_cons in HN as [Hk HN].
    rewrite <- IH by done. f_equal. clear IH HN. induction m as [|[k' v'] m IH]; [done|]. cbn [map fst] in *.
    apply not_elem_of_cons in Hk as [Hk1 Hk2]. rewrite filter_cons, decide_True by done. by rewrite <- IH.
  - intros k v (m1 & m2 & ->)%elem_of_list_split. exists m1, m2. split; [done|].
    rewrite map_app in HN. apply NoDup_app in HN as (_ & _ & HN). cbn [map fst] in HN. by apply NoDup_cons in HN as [? _].
Qed.
Lemma wtree_json w : wread w -> json_of T (wtree w) (unmarshal_any w).
Proof.
  induction w as [|b|f|z|s|l IH|m IH] using wjson_ind'; intros HK; cbn [wtree unmarshal_any].
  - constructor.
  - constructor.
  - inversion HK as [| |? (_ & _ & _ & H)| | | |]; subst. by constructor.
  - inversion HK as [| | |? H| | |]; subst. by constructor.
  - constructor.
  - inversion HK as [| | | | |? HF|]; subst. constructor. clear HK.
    induction l as [|x l IHl]; cbn [map]; [constructor|]. inversion IH; subst. inversion HF; subst. constructor; auto.
  - inversion HK as [| | | | | |? HN HF]; subst. apply (jo_obj T _ (map (fun kv => (fst kv, unmarshal_any (snd kv))) m)).
    + clear HK HN. induction m as [|[k x] m IHl]; cbn [map]; [constructor|]. inversion IH; subst. inversion HF; subst. constructor; auto.
    + apply final_nodup. rewrite map_map. cbn [fst]. done.
Qed.

(** ** From values to what is written *)
Lemma num_kept_finite f : num_kept T num f -> f64_finite f = true.
Proof. intros (H1 & H2 & _). destruct f; try done. by destruct (H2 s). Qed.
Lemma sort_members_forall {V} (P : string * V -> Prop) m : Forall P m -> Forall P (sort_members m).
Proof. intros H. by rewrite sort_members_perm. Qed.
Lemma write_json j : json_kept T num j ->
  let w := write_any (w_of_json j) in wkept w ∧ wread w ∧ any_encodable w = true ∧ same_json j (unmarshal_any w).
Proof.
  induction j as [|b|f|s|l IH|m IH] using json_ind'; intros HK; cbn [w_of_json write_any unmarshal_any].
  - repeat split; constructor.
  - repeat split; constructor.
  - inversion HK as [| |? H| | |]; subst. pose proof (num_kept_finite f H). repeat split; [by constructor..|done|constructor].
  - inversion HK as [| | |? H| |]; subst. repeat split; by constructor.
  - inversion HK as [| | | |? HF|]; subst. clear HK.
    assert (H : Forall wkept (map write_any (map w_of_json l)) ∧ Forall wread (map write_any (map w_of_json l)) ∧
       forallb any_encodable (map write_any (map w_of_json l)) = true ∧
       Forall2 same_json l (map unmarshal_any (map write_any (map w_of_json l)))).
    { induction l as [|x l IHl]; cbn [map forallb]; [repeat split; constructor|]. inversion IH as [|? ? Hx IH']; subst. inversion HF as [|? ? Hkx HF']; subst.
      destruct (Hx Hkx) as (H1 & H2 & H3 & H4). destruct (IHl IH' HF') as (H5 & H6 & H7 & H8).
      repeat split; [by constructor..| |by constructor]. by rewrite H3, H7. }
    destruct H as (H1 & H2 & H3 & H4). repeat split; try by constructor. done.
  - inversion HK as [| | | | |? HN HF]; subst. clear HK.
    set (g := fun kv : string * json => (fst kv, write_any (w_of_json (snd kv)))).
    assert (Em : map (fun kv => (fst kv, write_any (snd kv))) (map (fun kv => (fst kv, w_of_json (snd kv))) m) = map g m).
    { by rewrite map_map. }
    assert (Ek : map fst (map g m) = map fst m) by (by rewrite map_map).
    rewrite Em.
    assert (H : Forall (fun kv => utf8 (fst kv) ∧ wkept (snd kv)) (map g m) ∧ Forall (fun kv => wread (snd kv)) (map g m) ∧
       Forall (fun kv => any_encodable (snd kv) = true) (map g m) ∧
       Forall2 (fun a b => fst a = fst b ∧ same_json (snd a) (snd b)) m (map (fun kv => (fst kv, unmarshal_any (snd kv))) (map g m))).
    { clear HN Em Ek. induction m as [|[k x] m IHl]; cbn [map forallb]; [repeat split; constructor|].
      inversion IH as [|? ? Hx IH']; subst. inversion HF as [|? ? [Hk Hkx] HF']; subst. cbn [fst snd] in *.
      destruct (Hx Hkx) as (H1 & H2 & H3 & H4). destruct (IHl IH' HF') as (H5 & H6 & H7 & H8).
      repeat split; constructor; done. }
    destruct H as (H1 & H2 & H3 & H4). split; [|split; [|split]].
    + constructor. by apply sort_members_forall.
    + constructor; [|by apply sort_members_forall]. rewrite (fmap_Permutation fst _ _ (sort_members_perm _) : map fst _ ≡ₚ map fst _). by rewrite Ek.
    + apply forallb_forall. intros x Hx%elem_of_list_In. apply (sort_members_forall _ _ H3), Forall_forall in Hx || (pose proof (sort_members_forall _ _ H3) as H5; rewrite Forall_forall in H5; auto).
    + pose proof (fmap_Permutation (fun kv => (fst kv, unmarshal_any (snd kv))) _ _ (sort_members_perm (map g m))) as HP.
      apply Forall2_flip in H4. destruct (Forall2_perm_r _ _ _ _ H4 (symmetry HP)) as (m1 & Hm1 & HF1).
      apply Forall2_flip in HF1. by apply (sj_obj _ m1).
Qed.
Lemma prim_write p : prim_kept T num p -> wkept (write_prim p) ∧ wread (write_prim p) ∧ any_encodable (write_prim p) = true.
Proof.
  destruct p as [s|f|b]; cbn; intros H; repeat split; try by constructor. by apply num_kept_finite.
Qed.
Lemma write_doc t : doc_kept T num t -> wf t ->
  wkept (json_written t) ∧ (every_stamp (int_kept T) t -> wread (json_written t)) ∧ any_encodable (json_written t) = true ∧ encodable t = true.
Proof.
  induction t as [|p ts|m IH|l IH] using tson_ind'; intros HK HW; cbn [json_written].
  - repeat split; constructor.
  - inversion HK as [|? ? Hp| |]; subst. destruct (prim_write p Hp) as (H1 & H2 & H3). split; [|split; [|split]].
    + constructor. repeat (constructor; [split; [repeat (constructor; [done|]); constructor|by try constructor]|]). constructor.
    + intros Hs. inversion Hs; subst. constructor; [|repeat (constructor; [by try constructor|]); constructor].
      cbn. repeat (constructor; [set_solver|]). constructor.
    + cbn. by rewrite H3.
    + destruct p; try done.
  - inversion HK as [| |? HF|]; subst. inversion HW as [| |? HN HWm|]; subst. clear HK HW.
    set (g := fun kv : string * tson => (fst kv, json_written (snd kv))).
    assert (Ek : map fst (map g m) = map fst m) by (by rewrite map_map).
    assert (H : Forall (fun kv => utf8 (fst kv) ∧ wkept (snd kv)) (map g m) ∧
       (Forall (fun kv => every_stamp (int_kept T) (snd kv)) m -> Forall (fun kv => wread (snd kv)) (map g m)) ∧
       Forall (fun kv => any_encodable (snd kv) = true) (map g m) ∧ forallb (fun kv => encodable (snd kv)) m = true).
    { clear HN Ek. induction m as [|[k x] m IHl]; cbn [map forallb]; [repeat split; constructor|].
      inversion IH as [|? ? Hx IH']; subst. inversion HF as [|? ? [Hk Hkx] HF']; subst. inversion HWm as [|? ? Hwx HW']; subst. cbn [fst snd] in *.
      destruct (Hx Hkx Hwx) as (H1 & H2 & H3 & H4). destruct (IHl IH' HF' HW') as (H5 & H6 & H7 & H8).
      split; [by constructor|]. split; [|split; [by constructor|by rewrite H4, H8]].
      intros HS. inversion HS; subst. constructor; auto. }
    destruct H as (H1 & H2 & H3 & H4). split; [|split; [|split]].
    + constructor. by apply sort_members_forall.
    + intros HS. inversion HS; subst. constructor; [|apply sort_members_forall; auto].
      rewrite (fmap_Permutation fst _ _ (sort_members_perm _) : map fst _ ≡ₚ map fst _). by rewrite Ek.
    + cbn [any_encodable]. apply forallb_forall. intros x Hx%elem_of_list_In. pose proof (sort_members_forall _ _ H3) as H5. rewrite Forall_forall in H5. auto.
    + done.
  - inversion HK as [| | |? HF]; subst. inversion HW as [| | |? HWl]; subst. clear HK HW.
    assert (H : Forall wkept (map json_written l) ∧ (Forall (every_stamp (int_kept T)) l -> Forall wread (map json_written l)) ∧
       forallb any_encodable (map json_written l) = true ∧ forallb encodable l = true).
    { induction l as [|x l IHl]; cbn [map forallb]; [repeat split; constructor|]. inversion IH as [|? ? Hx IH']; subst.
      inversion HF as [|? ? Hkx HF']; subst. inversion HWl as [|? ? Hwx HW']; subst.
      destruct (Hx Hkx Hwx) as (H1 & H2 & H3 & H4). destruct (IHl IH' HF' HW') as (H5 & H6 & H7 & H8).
      split; [by constructor|]. split; [intros HS; inversion HS; subst; constructor; auto|]. by rewrite H3, H7, H4, H8. }
    destruct H as (H1 & H2 & H3 & H4). split; [by constructor|]. split; [|done]. intros HS. inversion HS; subst. constructor. auto.
Qed.
Lemma write_value v : value_kept T num v ->
  let w := w_of_any v in wkept w ∧ wread w ∧ any_encodable w = true ∧ rereads v (any_of_json (unmarshal_any w)).
Proof.
  destruct v as [|s|f|z|b|m|l|t]; cbn [value_kept w_of_any]; intros HK.
  - repeat split; constructor.
  - repeat split; by constructor.
  - pose proof (num_kept_finite f HK). repeat split; try done; by constructor.
  - repeat split; by constructor.
  - repeat split; constructor.
  - destruct (write_json _ HK) as (H1 & H2 & H3 & H4). do 3 (split; [done|]). cbn [w_of_json write_any unmarshal_any any_of_json rereads] in *. eauto.
  - destruct (write_json _ HK) as (H1 & H2 & H3 & H4). do 3 (split; [done|]). cbn [w_of_json write_any unmarshal_any any_of_json rereads] in *. eauto.
  - destruct HK as (HW & HK & HS). destruct (write_doc t HK HW) as (H1 & H2 & H3 & H4). do 2 (split; [auto|]). split; [done|]. cbn [rereads].
    destruct (bytes_decoded t (json_written t) HW) as (j & Hj & Hsj); [unfold to_bytes; by rewrite H4|].
    exists j, (unmarshal_any (json_written t)). split; [done|]. split; [done|]. by apply any_json_spec.
Qed.
Lemma enc_value v : value_kept T num v -> exists s t j, enc num v = Some s ∧ value_text s t ∧ json_of T t j ∧ rereads v (any_of_json j).
Proof.
  intros HK. destruct (write_value v HK) as (H1 & H2 & H3 & H4). unfold enc. rewrite H3.
  exists (wtext num (w_of_any v)), (wtree (w_of_any v)), (unmarshal_any (w_of_any v)). split; [done|]. split; [by apply wtext_value|].
  split; [by apply wtree_json|done].
Qed.

(** ** Operations *)
Lemma kind_of k s : kind_name k s -> op_name k = s ∧ op_of_name s = k.
Proof.
  intros H. pose proof (proj1 (kind_name_spec k s) H) as E. split; [|done]. destruct H as [H|[-> _]]; [|done].
  unfold standard in H. rewrite !elem_of_cons, elem_of_nil in H. repeat (destruct H as [[= -> ->]|H]; [done|]). done.
Qed.
Definition op_members (o : operation) (tv : option jtree) : list (string * jtree) :=
  [("op", JtStr (op_name (op_kind o))); ("path", JtStr (op_path o))] ++
  match tv with Some t => [("value", t)] | None => [] end ++ [("timestamp", JtNum (z_text (op_ts o)))].
Lemma op_tree_described o P tv j : kind_text P (op_kind o) -> - 2 ^ 63 <= op_ts o < 2 ^ 63 ->
  match tv with Some t => json_of T t j | None => j = JNull end ->
  describes T (JtObj (op_members o tv)) (Op (op_kind o) (op_path o) (any_of_json j) (op_ts o)).
Proof.
  intros (s & Hs & _) Hts Hj. apply kind_of in Hs as [E1 E2]. apply to_op_spec. unfold op_members, to_op. rewrite E1.
  assert (Hz : parse_int (z_text (op_ts o)) = Some (op_ts o)) by (by apply parse_int_spec, z_text_int).
  assert (S1 : forall x, set_field T zero_op "op" (JtStr x) = Ok (Op (op_of_name x) "" ANil 0)) by reflexivity.
  assert (S2 : forall a p, set_field T (Op a "" ANil 0) "path" (JtStr p) = Ok (Op a p ANil 0)) by reflexivity.
  assert (S3 : forall a p t, set_field T (Op a p ANil 0) "value" t = (do v <- to_any T t; Ok (Op a p (any_of_json v) 0))) by reflexivity.
  assert (S4 : forall a p v lit, set_field T (Op a p v 0) "timestamp" (JtNum lit) =
    match parse_int lit with Some z => Ok (Op a p v z) | None => Err end) by reflexivity.
  destruct tv as [t|].
  - apply to_any_spec in Hj. cbn [app set_fields]. rewrite S1. cbn [rbind]. rewrite S2. cbn [rbind]. rewrite S3, Hj. cbn [rbind].
    rewrite S4, Hz. cbn [rbind]. by rewrite E2.
  - subst j. cbn [app set_fields]. rewrite S1. cbn [rbind]. rewrite S2. cbn [rbind].
    rewrite S4, Hz. cbn [rbind]. by rewrite E2.
Qed.
Lemma plain_key (s : string) : (fix go s := match s with "" => true | String a s => in_range 97 (bv a) 122 && go s end) s = true -> string_text (quoted s) s.
Proof.
  intros H. apply quoted_text. induction s as [|a s IH]; [constructor|]. apply andb_true_iff in H as [H1 H2].
  unfold in_range in H1. apply andb_true_iff in H1 as [?%N.leb_le ?%N.leb_le]. unfold bv in *. apply pl_ascii; [lia..|auto].
Qed.
Lemma wh_space : white " ". Proof. constructor; [simpl; auto|constructor]. Qed.
(** Members with white space as the two writers put it. *)
Lemma members_written sp sp2 o nm pt tv sv : white sp -> white sp2 ->
  string_text nm (op_name (op_kind o)) -> string_text pt (op_path o) ->
  match tv, sv with Some t, Some s => value_text s t | None, None => True | _, _ => False end ->
  value_text ("{" +++ sp +++ quoted "op" +++ ":" +++ sp +++ nm +++ "," +++ sp +++ quoted "path" +++ ":" +++ sp +++ pt
     +++ match sv with Some s => "," +++ sp +++ quoted "value" +++ ":" +++ sp +++ s | None => "" end
     +++ "," +++ sp +++ quoted "timestamp" +++ ":" +++ sp +++ z_text (op_ts o) +++ sp2 +++ "}") (JtObj (op_members o tv)).
Proof.
  intros Hsp Hsp2 Hn Hp Hv. unfold op_members.
  assert (Hts : members_text (sp +++ quoted "timestamp" +++ "" +++ ":" +++ sp +++ z_text (op_ts o) +++ sp2) [("timestamp", JtNum (z_text (op_ts o)))]).
  { apply mt_one; try done; [by apply plain_key|constructor|]. constructor. apply z_text_number. }
  destruct tv as [t|], sv as [s|]; try done.
  - assert (Hva : members_text (sp +++ quoted "value" +++ "" +++ ":" +++ sp +++ s +++ "" +++ "," +++ (sp +++ quoted "timestamp" +++ "" +++ ":" +++ sp +++ z_text (op_ts o) +++ sp2))
       [("value", t); ("timestamp", JtNum (z_text (op_ts o)))]).
    { apply mt_more; try done; [by apply plain_key|constructor..]. }
    assert (Hpa : members_text (sp +++ quoted "path" +++ "" +++ ":" +++ sp +++ pt +++ "" +++ "," +++
       (sp +++ quoted "value" +++ "" +++ ":" +++ sp +++ s +++ "" +++ "," +++ (sp +++ quoted "timestamp" +++ "" +++ ":" +++ sp +++ z_text (op_ts o) +++ sp2)))
       [("path", JtStr (op_path o)); ("value", t); ("timestamp", JtNum (z_text (op_ts o)))]).
    { apply mt_more; try done; [by apply plain_key|constructor|by constructor|constructor]. }
    assert (Hop : members_text (sp +++ quoted "op" +++ "" +++ ":" +++ sp +++ nm +++ "" +++ "," +++
       (sp +++ quoted "path" +++ "" +++ ":" +++ sp +++ pt +++ "" +++ "," +++
       (sp +++ quoted "value" +++ "" +++ ":" +++ sp +++ s +++ "" +++ "," +++ (sp +++ quoted "timestamp" +++ "" +++ ":" +++ sp +++ z_text (op_ts o) +++ sp2))))
       [("op", JtStr (op_name (op_kind o))); ("path", JtStr (op_path o)); ("value", t); ("timestamp", JtNum (z_text (op_ts o)))]).
    { apply mt_more; try done; [by apply plain_key|constructor|by constructor|constructor]. }
    apply vt_obj in Hop. cbn [app]. match type of Hop with value_text ?x _ => match goal with |- value_text ?y _ => replace y with x; [exact Hop|] end end.
    rewrite !sapp_assoc. reflexivity.
  - assert (Hpa : members_text (sp +++ quoted "path" +++ "" +++ ":" +++ sp +++ pt +++ "" +++ "," +++
       (sp +++ quoted "timestamp" +++ "" +++ ":" +++ sp +++ z_text (op_ts o) +++ sp2))
       [("path", JtStr (op_path o)); ("timestamp", JtNum (z_text (op_ts o)))]).
    { apply mt_more; try done; [by apply plain_key|constructor|by constructor|constructor]. }
    assert (Hop : members_text (sp +++ quoted "op" +++ "" +++ ":" +++ sp +++ nm +++ "" +++ "," +++
       (sp +++ quoted "path" +++ "" +++ ":" +++ sp +++ pt +++ "" +++ "," +++
       (sp +++ quoted "timestamp" +++ "" +++ ":" +++ sp +++ z_text (op_ts o) +++ sp2)))
       [("op", JtStr (op_name (op_kind o))); ("path", JtStr (op_path o)); ("timestamp", JtNum (z_text (op_ts o)))]).
    { apply mt_more; try done; [by apply plain_key|constructor|by constructor|constructor]. }
    apply vt_obj in Hop. cbn [app]. match type of Hop with value_text ?x _ => match goal with |- value_text ?y _ => replace y with x; [exact Hop|] end end.
    rewrite !sapp_assoc. reflexivity.
Qed.
End writing.
