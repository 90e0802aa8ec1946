(** Facts about listings. *)
From Verif Require Import Base BaseSpec BaseLemmas BaseSpecLemmas F64 Tson TsonInd TsonSpec Bytes BytesLemmas Serial TextSpec ParseComplete MarshalText Heap Patch Tjson Json JsonSpec JsonLemmas JsonChars JsonWrite
  Vss VssSpec VssFileSpec VssSave Temporal Store StoreSpec StoreText StoreRead Listing ListingSpec.
From Verif Require NotJson.
From Coq Require Import Lia.

Notation lf := (ascii_of_N 10).
(** ** Lines *)
Lemma one_line_contains s : one_line s <-> contains lf s = false.
Proof.
  split.
  - induction s as [|a s IH]; [done|]. intros H. cbn [contains]. apply orb_false_iff. split.
    + apply bool_decide_eq_false. intros ->. by apply (H "" s).
    + apply IH. intros x y ->. by apply (H (String a x) y).
  - intros H x y ->. rewrite contains_app in H. cbn [contains] in H. rewrite bool_decide_true in H by done. by rewrite orb_true_r in H.
Qed.
Lemma split_lines s : Forall one_line (split_on lf s).
Proof.
  induction s as [|a s IH]; cbn [split_on].
  - constructor; [|constructor]. by apply one_line_contains.
  - case_decide as Ha.
    + constructor; [by apply one_line_contains|done].
    + destruct (split_on lf s) as [|w ws] eqn:E; [by apply split_on_ne in E|]. apply Forall_cons in IH as [H1 H2]. constructor; [|done].
      apply one_line_contains. cbn [contains]. rewrite bool_decide_false by done. by apply one_line_contains.
Qed.
Lemma join_lines s : String.concat (String lf "") (split_on lf s) = s.
Proof.
  induction s as [|a s IH]; [done|]. cbn [split_on]. pose proof (split_on_ne lf s) as Hne. case_decide as Ha.
  - destruct (split_on lf s) as [|w ws] eqn:E; [done|]. cbn [String.concat] in *. rewrite IH. by rewrite Ha.
  - destruct (split_on lf s) as [|w ws] eqn:E; [done|]. cbn [String.concat] in *. destruct ws; cbn [String.concat] in *; [by rewrite IH|]. by rewrite <- IH.
Qed.
(** ** Numbers of lines *)
Lemma digits_zero s n : digits s n -> digits (String "0" s) n.
Proof.
  induction 1 as [a d H|s n a d H IH Hd].
  - change (String "0" (String a "")) with (String "0" "" +++ String a ""). replace d with (10 * 0 + d)%N by lia. constructor; [|done]. constructor. by vm_compute.
  - change (String "0" (s +++ String a "")) with (String "0" s +++ String a ""). by constructor.
Qed.
Lemma padded_digits k n : 0 <= n -> digits (padded k n) (Z.to_N n) ∧ (k <= slength (padded k n))%nat.
Proof.
  intros Hn. unfold padded. set (s := dec_text (Z.to_N n)).
  assert (H : forall l : list nat, digits (foldr (fun _ r => String "0" r) s l) (Z.to_N n) ∧ slength (foldr (fun _ r => String "0" r) s l) = (length l + slength s)%nat).
  { induction l as [|x l [IH1 IH2]]; cbn [foldr]; [split; [apply dec_text_digits|done]|]. split; [by apply digits_zero|]. cbn [slength length]. by rewrite IH2. }
  destruct (H (seq 0 (k - slength s))) as [H1 H2]. split; [done|]. rewrite H2, seq_length. lia.
Qed.
Lemma number_lines_spec ls i : 0 <= i -> Forall one_line ls -> numbered (Z.to_N i) ls (number_lines i ls).
Proof.
  revert i. induction ls as [|l ls IH]; intros i Hi HF; [constructor|]. apply Forall_cons in HF as [H1 H2]. cbn [number_lines].
  destruct (padded_digits 5 i Hi) as [D1 D2]. constructor; [done|done|done|]. replace (Z.to_N i + 1)%N with (Z.to_N (i + 1)) by lia. apply IH; [lia|done].
Qed.
Lemma digits_no_lf s n : digits s n -> contains lf s = false ∧ contains ":" s = false.
Proof.
  assert (D : forall a d, digit a d -> contains lf (String a "") = false ∧ contains ":" (String a "") = false).
  { intros a d [H1 H2]. cbn [contains]. rewrite !orb_false_r. split; apply bool_decide_eq_false; intros ->.
    - change (N_of_ascii lf) with 10%N in H2. lia.
    - change (N_of_ascii ":") with 58%N in H2. lia. }
  induction 1 as [a d H|s n a d H [IH1 IH2] Hd]; [by eapply D|]. rewrite !contains_app, IH1, IH2. destruct (D a d Hd) as [-> ->]. done.
Qed.
Lemma first_unique c a a' b b' : contains c a = false -> contains c a' = false -> a +++ String c b = a' +++ String c b' -> a = a' ∧ b = b'.
Proof.
  revert a'. induction a as [|x a IH]; intros [|x' a'] H H' E; cbn in *.
  - by injection E.
  - injection E as <- _. by rewrite bool_decide_true in H'.
  - injection E as -> _. by rewrite bool_decide_true in H.
  - apply orb_false_iff in H as [_ H], H' as [_ H']. injection E as -> E. destruct (IH a' H H' E) as [-> ->]. done.
Qed.
Lemma numbered_det i ls out : numbered i ls out -> forall ls', numbered i ls' out -> ls' = ls.
Proof.
  induction 1 as [i|i n l ls out Hn H5 Hl H IH]; intros ls' H'.
  - inversion H' as [|x n' l' ls1 out1 Hn' A1 A2 A3 A4 A5 E]; [done|]. by destruct n'.
  - inversion H' as [x Ex Els E|x n' l' ls1 out1 Hn' H5' Hl' H1' Ex Els E]; subst; [by destruct n|].
    destruct (digits_no_lf _ _ Hn) as [A1 A2], (digits_no_lf _ _ Hn') as [B1 B2].
    change (": " +++ l' +++ String lf out1) with (String ":" (String " " (l' +++ String lf out1))) in E.
    change (": " +++ l +++ String lf out) with (String ":" (String " " (l +++ String lf out))) in E.
    apply first_unique in E as [-> E]; [|done|done]. injection E as E.
    apply first_unique in E as [-> ->]; [|by apply one_line_contains|by apply one_line_contains]. f_equal. by apply IH.
Qed.

(** ** Counting line feeds *)
Fixpoint feeds (s : string) : nat := match s with EmptyString => 0 | String a s' => (if decide (a = lf) then 1 else 0) + feeds s' end.
Lemma feeds_app s s' : feeds (s +++ s') = (feeds s + feeds s')%nat.
Proof. induction s as [|a s IH]; [done|]. cbn [feeds append]. change (String a s +++ s') with (String a (s +++ s')). cbn [feeds]. rewrite IH. lia. Qed.
Lemma feeds_split s : length (split_on lf s) = S (feeds s).
Proof.
  induction s as [|a s IH]; [done|]. cbn [split_on feeds]. case_decide; [cbn [length]; lia|].
  destruct (split_on lf s) as [|w ws] eqn:E; [done|]. cbn [length] in *. lia.
Qed.
Lemma feeds_none s : contains lf s = false -> feeds s = 0%nat.
Proof. induction s as [|a s IH]; [done|]. cbn [contains feeds]. intros [H1 H2]%orb_false_iff. apply bool_decide_eq_false in H1. rewrite decide_False by done. auto. Qed.
Lemma feeds_digits s : some_digits s -> feeds s = 0%nat.
Proof. intros [n H]. apply feeds_none, (digits_no_lf _ _ H). Qed.
Lemma feeds_number s : number_text s -> feeds s = 0%nat.
Proof.
  intros [g i f e Hg Hi Hf He]. rewrite !feeds_app.
  assert (feeds g = 0%nat) as -> by (by destruct Hg as [-> | ->]).
  assert (feeds i = 0%nat) as -> by (destruct Hi; [done|by apply feeds_digits]).
  assert (feeds f = 0%nat) as -> by (destruct Hf as [|fs Hs]; [done|]; by rewrite feeds_app, (feeds_digits fs Hs)).
  destruct He as [|e g1 es He Hg' Hs]; [done|]. rewrite !feeds_app, (feeds_digits _ Hs).
  destruct He as [-> | ->], Hg' as [-> |[-> | ->]]; done.
Qed.
Lemma feeds_bytes l : Forall (fun b => 10 < b < 256)%N l -> feeds (bytes l) = 0%nat.
Proof.
  intros H. apply feeds_none. induction H as [|b l Hb _ IH]; [done|]. cbn. apply orb_false_iff. split; [|done].
  apply bool_decide_eq_false. intros E. assert (E2 : N_of_ascii (ascii_of_N b) = 10%N) by (by rewrite E). rewrite (N_ascii_embedding b) in E2 by lia. lia.
Qed.
Lemma feeds_char a : (10 < N_of_ascii a)%N -> feeds (String a "") = 0%nat.
Proof. intros H. cbn [feeds]. case_decide as E; [|done]. rewrite E in H. change (N_of_ascii lf) with 10%N in H. lia. Qed.
Lemma feeds_cons a s : (10 < N_of_ascii a)%N -> feeds (String a s) = feeds s.
Proof. intros H. change (String a s) with (String a "" +++ s). by rewrite feeds_app, feeds_char. Qed.
Lemma hex_high a d : hex a d -> (10 < N_of_ascii a)%N.
Proof. unfold hex, digit. lia. Qed.
Lemma feeds_u u r : u_text u r -> feeds u = 0%nat.
Proof.
  intros (h & -> & Hh). rewrite feeds_app. destruct Hh as [a b c d w x y z H1%hex_high H2%hex_high H3%hex_high H4%hex_high].
  by rewrite !feeds_cons.
Qed.
Lemma feeds_chars s v : chars s v -> feeds s = 0%nat.
Proof.
  induction 1 as [|a s v H _ _ _ IH|r s v Hr _ IH|a s v H _ _ IH|e c s v H _ IH|u r s v H _ _ IH|u u' r r' s v H H' _ _ _ _ IH|u r s v H _ _ _ IH].
  - done.
  - by rewrite feeds_cons by lia.
  - rewrite feeds_app, IH. rewrite feeds_bytes; [done|]. eapply Forall_impl; [by apply NotJson.utf8_high|]. intros x Hx. cbn beta in *. lia.
  - by rewrite feeds_cons by lia.
  - rewrite feeds_app, IH. unfold escapes in H. cbn in H. 
    repeat (destruct H as [[= <- <-]|H]; [done|]). done.
  - by rewrite feeds_app, IH, (feeds_u _ _ H).
  - by rewrite !feeds_app, IH, (feeds_u _ _ H), (feeds_u _ _ H').
  - by rewrite feeds_app, IH, (feeds_u _ _ H).
Qed.
Lemma feeds_string s : utf8 s -> feeds (json_string s) = 0%nat.
Proof.
  intros H. unfold json_string. change (String dquote (json_chars s +++ String dquote "")) with (String dquote "" +++ json_chars s +++ String dquote "").
  rewrite !feeds_app, (feeds_chars (json_chars s) s) by (by apply json_chars_chars). done.
Qed.
Lemma sum_cons x l : sum_list (x :: l) = (x + sum_list l)%nat.
Proof. done. Qed.
Lemma feeds_concat sep l : feeds (String.concat sep l) = (sum_list (map feeds l) + (length l - 1) * feeds sep)%nat.
Proof.
  induction l as [|x l IH]; [done|]. destruct l as [|y l]; [cbn; lia|].
  change (String.concat sep (x :: y :: l)) with (x +++ sep +++ String.concat sep (y :: l)). rewrite !feeds_app, IH.
  change (map feeds (x :: y :: l)) with (feeds x :: map feeds (y :: l)). rewrite sum_cons. cbn [length]. lia.
Qed.
Lemma feeds_line ind d : feeds ind = 0%nat -> feeds (line ind d) = 1%nat.
Proof.
  intros H. unfold line. change (String lf (blanks ind d)) with (String lf "" +++ blanks ind d). rewrite feeds_app.
  assert (E : feeds (blanks ind d) = 0%nat) by (induction d as [|d IH]; [done|]; cbn [blanks]; by rewrite feeds_app, H, IH).
  rewrite E. done.
Qed.
Lemma sum_rows {A} (f g : A -> nat) l : Forall (fun x => S (f x) = g x) l -> (sum_list (map f l) + length l = sum_list (map g l))%nat.
Proof. induction 1 as [|x l Hx _ IH]; [done|]. cbn [map length]. rewrite !sum_cons. lia. Qed.
Section rows.
Context (T : textlib) (num : f64 -> string) (ind : string).
Lemma indented_arr x l d : indented num ind d (WArr (x :: l)) =
  "[" +++ line ind (S d) +++ String.concat ("," +++ line ind (S d)) (map (indented num ind (S d)) (x :: l)) +++ line ind d +++ "]".
Proof. done. Qed.
Lemma indented_obj x m d : indented num ind d (WObj (x :: m)) =
  "{" +++ line ind (S d) +++ String.concat ("," +++ line ind (S d)) (map (fun kv => json_string (fst kv) +++ ": " +++ indented num ind (S d) (snd kv)) (x :: m)) +++ line ind d +++ "}".
Proof. done. Qed.
Lemma feeds_indented w : feeds ind = 0%nat -> survives T num w -> forall d, S (feeds (indented num ind d w)) = rows w.
Proof.
  intros Hi. induction w as [|b|f|z|s|l IH|m IH] using wjson_ind'; intros H d; inversion H as [| |? HK| | |? HF|? HN HF]; subst.
  - done.
  - by destruct b.
  - cbn [indented rows]. destruct HK as (_ & _ & HK & _). by rewrite feeds_number.
  - cbn [indented rows]. by rewrite feeds_number by apply JsonWrite.z_text_number.
  - cbn [indented rows]. by rewrite feeds_string.
  - destruct l as [|x l]; [done|]. rewrite indented_arr. change (rows (WArr (x :: l))) with (2 + sum_list (map rows (x :: l)))%nat.
    rewrite !feeds_app, feeds_concat, map_length, feeds_app, !feeds_line by done. rewrite map_map.
    rewrite <- (sum_rows (fun w => feeds (indented num ind (S d) w)) rows (x :: l)).
    2:{ rewrite Forall_forall in *. intros y Hy. apply IH; auto. }
    change (feeds "[") with 0%nat. change (feeds "]") with 0%nat. change (feeds ",") with 0%nat. cbn [length]. lia.
  - destruct m as [|x m]; [done|]. rewrite indented_obj. change (rows (WObj (x :: m))) with (2 + sum_list (map (fun kv => rows (snd kv)) (x :: m)))%nat.
    rewrite !feeds_app, feeds_concat, map_length, feeds_app, !feeds_line by done. rewrite map_map.
    rewrite <- (sum_rows (fun kv => feeds (json_string (fst kv) +++ ": " +++ indented num ind (S d) (snd kv))) (fun kv => rows (snd kv)) (x :: m)).
    2:{ rewrite Forall_forall in *. intros y Hy. destruct (HF y Hy) as [Hu Hs]. rewrite !feeds_app, feeds_string by done. change (feeds ": ") with 0%nat. rewrite <- (IH y Hy Hs (S d)). done. }
    change (feeds "{") with 0%nat. change (feeds "}") with 0%nat. change (feeds ",") with 0%nat. cbn [length]. lia.
Qed.
End rows.
Lemma sum_perm l l' : l ≡ₚ l' -> sum_list l = sum_list l'.
Proof. induction 1; rewrite ?sum_cons; lia. Qed.
Lemma rows_sorted w : rows (write_any w) = rows w.
Proof.
  induction w as [|b|f|z|s|l IH|m IH] using wjson_ind'; try done.
  - cbn [write_any]. destruct l as [|x l]; [done|]. change (rows (WArr (x :: l))) with (2 + sum_list (map rows (x :: l)))%nat.
    change (rows (WArr (map write_any (x :: l)))) with (2 + sum_list (map rows (map write_any (x :: l))))%nat. f_equal.
    rewrite map_map. f_equal. apply map_ext_in. intros y Hy%elem_of_list_In. rewrite Forall_forall in IH. auto.
  - cbn [write_any]. destruct m as [|x m]; [done|]. set (m1 := map (fun kv => (fst kv, write_any (snd kv))) (x :: m)).
    pose proof (sort_members_perm m1) as HP. assert (Hne : sort_members m1 <> []).
    { intros E. rewrite E in HP. apply Permutation_nil in HP. done. }
    assert (R : forall m', m' <> [] -> rows (WObj m') = (2 + sum_list (map (fun kv => rows (snd kv)) m'))%nat) by (by intros [|y m']).
    rewrite !R by done. f_equal. rewrite (sum_perm _ _ (Permutation_map _ HP)). unfold m1. rewrite map_map. f_equal.
    apply map_ext_in. intros y Hy%elem_of_list_In. cbn [snd]. rewrite Forall_forall in IH. by apply IH.
Qed.
Lemma indent4_white : white "    ".
Proof. repeat (constructor; [simpl; tauto|]). constructor. Qed.
Lemma print_ok T num d : survives T num d -> exists ls t j,
  numbered 1 ls (print_index num d) ∧ (forall ls', numbered 1 ls' (print_index num d) -> ls' = ls) ∧ length ls = rows d ∧
  json_text (String.concat (String lf "") ls) t ∧ json_of T t j ∧ decoded d j.
Proof.
  intros H%survives_sorted. unfold print_index, marshal_indent. rewrite (survives_marshals T num _ H). cbn [default].
  destruct (indented_read T num "    " _ indent4_white H) as (t & H1 & _ & H2 & _).
  set (s := indented num "    " 0 (write_any d)) in *. exists (split_on lf s), t, (unmarshal_any (write_any d)).
  assert (HN : numbered 1 (split_on lf s) (number_lines 1 (split_on lf s))) by (apply (number_lines_spec _ 1); [lia|apply split_lines]).
  split; [done|]. split; [intros ls' H'; by apply (numbered_det _ _ _ HN)|]. rewrite join_lines. split; [|exact (conj H1 (conj H2 (decoded_written d)))].
  rewrite feeds_split. unfold s. rewrite (feeds_indented T num "    ") by done. apply rows_sorted.
Qed.
Lemma print_numbered num d : exists ls, numbered 1 ls (print_index num d).
Proof. eexists. apply (number_lines_spec _ 1); [lia|apply split_lines]. Qed.
Lemma marshals_written d : marshals (write_any d) = marshals d.
Proof.
  induction d as [|b|f|z|s|l IH|m IH] using wjson_ind'; try done; cbn [write_any marshals].
  - induction IH as [|x l Hx _ IHl]; [done|]. cbn [map forallb]. by rewrite Hx, IHl.
  - rewrite marshals_sorted. induction IH as [|x m Hx _ IHm]; [done|]. cbn [map forallb snd]. by rewrite Hx, IHm.
Qed.
Lemma print_empty num d : no_number d -> print_index num d = "00001: " +++ String lf "".
Proof.
  intros H%marshals_spec. unfold print_index, marshal_indent. rewrite marshals_written, H. by vm_compute.
Qed.

(** ** The plain listing *)
Lemma print_read L fmt0 d : storable L d -> exists t, Serial.unmarshal L (print_data L fmt0 d) = Ok t ∧ shown d t.
Proof.
  intros HD. destruct (storable_saved L d HD) as (t & Ht). exists t. destruct HD as [[m ->] Hs _ _]. split.
  - assert (Hn : "timestamp" ∉ map fst m) by (intros Hin; apply Hs; by exists m).
    destruct (saved_text L fmt0 (WObj m) t) with (cur := "") (ind := "    ") (c := CTop) as [(v & ts & (? & [= <-] & HP))|(s & Es & Hv & _)].
    + constructor.
    + repeat (constructor; [simpl; auto|]). constructor.
    + done.
    + destruct Hn. rewrite HP. right. by left.
    + unfold print_data, save_data. rewrite Es. apply unmarshal_complete. by apply closed_doc.
  - constructor; [by apply (saved_wf L _ t Ht)|by apply (saved_cells L)|by apply (saved_branches L)|by apply (saved_arrays L)].
Qed.
