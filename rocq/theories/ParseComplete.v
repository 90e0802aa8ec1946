(** The parser reads every text of the grammar as the document it denotes. *)
From Verif Require Import Base F64 Tson Serial BaseLemmas BaseSpec BaseSpecLemmas TextSpec.
From Coq Require Import Lia.

Lemma blank_ws a : In (N_of_ascii a) [32; 9; 10; 13]%N <-> is_ws a = true.
Proof.
  unfold is_ws, bv. simpl. rewrite !orb_true_iff, !N.eqb_eq. intuition congruence.
Qed.
Lemma skip_ws_blank w s : blank w -> skip_ws (w +++ s) = skip_ws s.
Proof. induction 1 as [|a w Ha Hw IH]; simpl; auto. apply blank_ws in Ha. by rewrite Ha. Qed.
Lemma blank_app w w' : blank w -> blank w' -> blank (w +++ w').
Proof. induction 1; simpl; auto. constructor; auto. Qed.
Lemma skip_ws_split s : exists w, blank w ∧ s = w +++ skip_ws s.
Proof.
  induction s as [|a s (w & Hw & E)]; simpl.
  - exists "". split; [constructor|done].
  - destruct (is_ws a) eqn:Ha.
    + exists (String a w). split; [constructor; [by apply blank_ws|done]|]. simpl. congruence.
    + exists "". split; [constructor|done].
Qed.
Lemma skip_ws_idem s : skip_ws (skip_ws s) = skip_ws s.
Proof. induction s as [|a s IH]; simpl; auto. destruct (is_ws a) eqn:E; auto. simpl. by rewrite E. Qed.
Lemma skip_ws_id a s : is_ws a = false -> skip_ws (String a s) = String a s.
Proof. simpl. by intros ->. Qed.
Lemma skip_ws_head s a r : skip_ws s = String a r -> is_ws a = false.
Proof.
  induction s as [|b s IH]; simpl; [done|]. destruct (is_ws b) eqn:E; auto.
  intros [= <- <-]. done.
Qed.
Lemma slength_skip_ws s : (slength (skip_ws s) <= slength s)%nat.
Proof. induction s as [|a s IH]; simpl; auto. destruct (is_ws a); simpl; lia. Qed.

Lemma expect_ok c s rest : is_ws c = false -> skip_ws s = String c rest -> expect c s = POk tt rest.
Proof. unfold expect. intros _ ->. by rewrite decide_True. Qed.

Lemma parse_string_body_ok txt s rest :
  literal txt s -> parse_string_body (txt +++ String dquote rest) = POk s rest.
Proof.
  induction 1 as [|a txt s H1 H2 Hl IH|e c txt s He Hl IH].
  - reflexivity.
  - cbn [String.append parse_string_body]. do 2 rewrite decide_False by done. by rewrite IH.
  - destruct He; cbn -[ascii_of_N dquote]; rewrite IH; reflexivity.
Qed.
Lemma parse_string_ok txt s w rest :
  literal txt s -> blank w ->
  parse_string (w +++ String dquote (txt +++ String dquote rest)) = POk s rest.
Proof.
  intros Hl Hw. unfold parse_string.
  rewrite (expect_ok dquote _ (txt +++ String dquote rest)); auto.
  - simpl. by apply parse_string_body_ok.
  - by rewrite skip_ws_blank.
Qed.

Lemma parse_string_ok0 txt s rest :
  literal txt s -> parse_string (String dquote (txt +++ String dquote rest)) = POk s rest.
Proof. intros. by apply (parse_string_ok txt s "" rest H blank_nil). Qed.

Definition digit_stop (s : string) : Prop := forall a d, digit a d -> ~ begins a s.
Lemma not_digit a d : is_digit a = false -> ~ digit a d.
Proof. intros H [H2 _]%digit_model. congruence. Qed.
Lemma stamp_intro d w :
  all_digits d = true -> d ≠ "" -> Z.of_N (dec_val 0 d) <= int64_max -> blank w ->
  stamp ("<" +++ d +++ w +++ ">") (Z.of_N (dec_val 0 d)).
Proof. intros H1 H2 H3 H4. apply stamp_some; [by apply digits_model|unfold int64_max in H3; lia|done]. Qed.
Lemma span_digits_ok d rest :
  all_digits d = true -> digit_stop rest -> span_digits (d +++ rest) = (d, rest).
Proof.
  intros Hd Hs. induction d as [|a d IH]; simpl.
  - destruct rest as [|a r]; auto. simpl. destruct (is_digit a) eqn:E; auto.
    exfalso. eapply Hs; [by apply digit_model|]. by eexists.
  - simpl in Hd. apply andb_true_iff in Hd as [Ha Hd]. rewrite Ha. rewrite IH by done. done.
Qed.
Lemma all_digits_head d a r : d = String a r -> all_digits d = true -> is_digit a = true.
Proof. intros -> H. simpl in H. by apply andb_true_iff in H as [? ?]. Qed.

Lemma is_digit_ws a : is_digit a = true -> is_ws a = false.
Proof.
  unfold is_digit, is_ws, bv. rewrite andb_true_iff, !N.leb_le. intros [H1 H2].
  rewrite !orb_false_iff, !N.eqb_neq. repeat split; lia.
Qed.
Lemma is_digit_ne a c : is_digit a = true -> is_digit c = false -> a ≠ c.
Proof. congruence. Qed.

Lemma quoted_app txt rest :
  String (ascii_of_N 34) (txt +++ String (ascii_of_N 34) "") +++ rest
  = String dquote (txt +++ String dquote rest).
Proof. simpl. by rewrite sapp_assoc. Qed.
Lemma scons_app a s r : String a s +++ r = String a (s +++ r).
Proof. done. Qed.

Lemma bracket_app a s b rest :
  (String a "" +++ s +++ b) +++ rest = String a (s +++ b +++ rest).
Proof. simpl. by rewrite sapp_assoc. Qed.

Lemma comma_app s s' b rest :
  (s +++ "," +++ s') +++ b +++ rest = s +++ String "," (s' +++ b +++ rest).
Proof. by rewrite !sapp_assoc. Qed.

Section parse.
Context (L : textlib).

(** One unfolding of the mutual parser. *)
Lemma parse_val_S f s : parse_val L (S f) s =
      let s1 := skip_ws s in
      let c := peek s1 in
      if decide (c = lt_char) then
        pbind (parse_timestamp s1) (fun ts r =>
          pbind (parse_primitive L (skip_ws r)) (fun p r' => POk (TLeaf p ts) r'))
      else if decide (c = "{"%char) then
        pbind (expect "{" s1) (fun _ r =>
          let r1 := skip_ws r in
          match r1 with
          | String a r2 => if decide (a = "}"%char) then POk (TObj []) r2 else parse_members L f [] r1
          | EmptyString => parse_members L f [] r1
          end)
      else if decide (c = "["%char) then
        pbind (expect "[" s1) (fun _ r =>
          let r1 := skip_ws r in
          match r1 with
          | String a r2 => if decide (a = "]"%char) then POk (TArr []) r2 else parse_elems L f [] r1
          | EmptyString => parse_elems L f [] r1
          end)
      else if decide (c = dquote) then
        pbind (parse_primitive L s1) (fun p r => trailing_ts p r)
      else if starts_number c then
        pbind (parse_primitive L s1) (fun p r => trailing_ts p r)
      else match drop_prefix "true" s1 with
      | Some r => trailing_ts (PBool true) r
      | None => match drop_prefix "false" s1 with
        | Some r => trailing_ts (PBool false) r
        | None => match drop_prefix "null" s1 with
          | Some r => POk TNil r
          | None => PErr
          end
        end
      end.
Proof. reflexivity. Qed.
Lemma parse_members_S f acc s : parse_members L (S f) acc s =
      pbind (parse_string (skip_ws s)) (fun key r =>
        let r1 := skip_ws r in
        pbind (if decide (peek r1 = lt_char)
               then pbind (parse_timestamp r1) (fun ts r2 => POk ts (skip_ws r2))
               else POk 0 r1) (fun ts r3 =>
          pbind (expect ":" r3) (fun _ r4 =>
            pbind (parse_val L f (skip_ws r4)) (fun v r5 =>
              match wrap v ts with
              | None => PPanic
              | Some v' =>
                  let acc' := ainsert key v' acc in
                  match skip_ws r5 with
                  | String a r6 =>
                      if decide (a = ","%char) then parse_members L f acc' r6
                      else if decide (a = "}"%char) then POk (TObj acc') r6
                      else PErr
                  | EmptyString => PErr
                  end
              end)))).
Proof. reflexivity. Qed.
Lemma parse_elems_S f acc s : parse_elems L (S f) acc s =
      let s1 := skip_ws s in
      pbind (if decide (peek s1 = lt_char)
             then pbind (parse_timestamp s1) (fun ts r2 => POk ts (skip_ws r2))
             else POk 0 s1) (fun ts r3 =>
        pbind (parse_val L f r3) (fun v r5 =>
          match wrap v ts with
          | None => PPanic
          | Some v' =>
              let acc' := acc ++ [v'] in
              match skip_ws r5 with
              | String a r6 =>
                  if decide (a = ","%char) then parse_elems L f acc' r6
                  else if decide (a = "]"%char) then POk (TArr acc') r6
                  else PErr
              | EmptyString => PErr
              end
          end)).
Proof. reflexivity. Qed.

Lemma parse_number_ok txt f dotted rest :
  number L txt f dotted -> digit_stop rest -> (negb dotted = true -> ~ begins "." rest) ->
  parse_number L (txt +++ rest) = POk f rest.
Proof.
  intros [sg ip fp f' dotted' Hsg Hip Hfp Hn] Hd Hdot. unfold parse_number. apply opt_digits_model in Hip.
  assert (E : (match (sg +++ ip +++ fp) +++ rest with
     | String a s' => if decide (a = "-"%char) then (String a "", s') else ("", (sg +++ ip +++ fp) +++ rest)
     | EmptyString => ("", (sg +++ ip +++ fp) +++ rest)
     end) = (sg, ip +++ fp +++ rest)).
  { destruct Hsg as [->|[-> Hne]]; simpl.
    - by rewrite sapp_assoc.
    - rewrite sapp_assoc. destruct ip as [|a ip]; [done|]. simpl.
      simpl in Hip. apply andb_true_iff in Hip as [Ha _].
      rewrite decide_False; [done|]. intros ->. done. }
  rewrite E.
  destruct Hfp as [[-> ->]|[-> (d & -> & Hd2%opt_digits_model)]].
  - simpl. rewrite span_digits_ok by done. rewrite sapp_nil_r in *.
    destruct rest as [|a r]; simpl.
    + rewrite sapp_nil_r. by rewrite Hn.
    + rewrite decide_False.
      * rewrite sapp_nil_r. by rewrite Hn.
      * intros ->. apply Hdot; [done|]. by eexists.
  - simpl String.append at 1. rewrite span_digits_ok.
    + simpl. rewrite span_digits_ok by done. by rewrite Hn.
    + done.
    + intros a z Ha [r Er]. simpl in Er. injection Er as <- _. revert Ha. by apply not_digit.
Qed.

Lemma parse_timestamp_ok st ts w rest :
  stamp st ts -> blank w -> parse_timestamp (w +++ st +++ rest) = POk ts rest.
Proof.
  intros Hs Hw. unfold parse_timestamp. destruct Hs as [|d n w' Hn Hmax Hw'].
  - rewrite (expect_ok lt_char _ (String gt_char rest)); auto.
    by rewrite skip_ws_blank.
  - apply digits_model in Hn as (Hne & Hd & <-).
    rewrite (expect_ok lt_char _ (d +++ w' +++ String gt_char rest)); auto.
    2:{ rewrite skip_ws_blank by done. simpl. f_equal. by rewrite !sapp_assoc. }
    cbn [pbind]. assert (Hsp : span_digits (d +++ w' +++ String gt_char rest) = (d, w' +++ String gt_char rest)).
    { apply span_digits_ok; auto. intros a z [Ha _]%digit_model [r Er].
      destruct Hw' as [|b w' Hb Hw']; simpl in Er; injection Er as <- _.
      - done.
      - apply blank_ws in Hb. apply is_digit_ws in Ha. congruence. }
    destruct (d +++ w' +++ String gt_char rest) as [|a r] eqn:E.
    { destruct d; done. }
    destruct (decide (a = gt_char)) as [->|Hgt].
    { exfalso. destruct d as [|b d']; [done|]. simpl in E. injection E as -> _.
      simpl in Hd. done. }
    rewrite Hsp. rewrite decide_False by done.
    rewrite parse_int_digits by done. unfold in_int64.
    replace (_ && _) with true.
    2:{ symmetry. apply andb_true_iff. split; apply Z.leb_le; [unfold int64_min; lia|unfold int64_max; lia]. }
    rewrite (expect_ok gt_char _ rest); auto. by rewrite skip_ws_blank.
Qed.

Lemma parse_timestamp_ok0 st ts rest :
  stamp st ts -> parse_timestamp (st +++ rest) = POk ts rest.
Proof. intros. by apply (parse_timestamp_ok st ts "" rest H blank_nil). Qed.

Lemma number_head txt f dotted :
  number L txt f dotted -> exists a r, txt = String a r ∧ starts_number a = true.
Proof.
  intros [sg ip fp f' dotted' Hsg Hip%opt_digits_model Hfp Hn].
  destruct Hsg as [->|[-> Hne]]; simpl.
  - by do 2 eexists.
  - destruct ip as [|a ip]; [done|]. simpl in *. apply andb_true_iff in Hip as [Ha _].
    do 2 eexists. split; [done|]. unfold starts_number. rewrite Ha. apply orb_true_r.
Qed.
Lemma starts_number_ws a : starts_number a = true -> is_ws a = false.
Proof.
  unfold starts_number. intros [H|H]%orb_true_iff.
  - apply bool_decide_eq_true in H as ->. done.
  - by apply is_digit_ws.
Qed.
Lemma starts_number_ne a c : starts_number a = true -> starts_number c = false -> a ≠ c.
Proof. congruence. Qed.

Lemma parse_primitive_ok k p s w rest :
  scalar_text L k p s -> (forall b, p ≠ PBool b) -> tail_ok k rest -> blank w ->
  parse_primitive L (w +++ s +++ rest) = POk p rest.
Proof.
  intros Hs Hb (_ & Hd & Hdot) Hw. unfold parse_primitive. rewrite skip_ws_blank by done.
  destruct Hs as [txt x Hl|txt f dotted Hn| |].
  - rewrite quoted_app. rewrite skip_ws_id by done. cbn [peek].
    rewrite decide_True by done.
    rewrite (parse_string_ok0 txt x rest Hl). done.
  - destruct (number_head _ _ _ Hn) as (a & r & -> & Ha).
    rewrite scons_app. rewrite skip_ws_id by by apply starts_number_ws.
    cbn [peek]. rewrite decide_False by (by apply starts_number_ne). rewrite Ha.
    change (String a (r +++ rest)) with (String a r +++ rest).
    erewrite parse_number_ok; eauto. exact (Hd eq_refl).
  - by destruct (Hb true).
  - by destruct (Hb false).
Qed.

Lemma parse_primitive_ok0 k p s rest :
  scalar_text L k p s -> (forall b, p ≠ PBool b) -> tail_ok k rest ->
  parse_primitive L (s +++ rest) = POk p rest.
Proof. intros. by eapply (parse_primitive_ok k p s "" rest); eauto using blank_nil. Qed.

Lemma begins_peek a s : a ≠ ascii_of_N 0 -> begins a s <-> peek s = a.
Proof.
  intros Ha. split; [by intros [r ->]|]. destruct s; cbn [peek]; [by intros <-|]. intros ->. by eexists.
Qed.

Lemma trailing_none p k rest :
  tail_ok k rest -> no_stamp k = true ->
  exists w rest', trailing_ts p rest = POk (TLeaf p (-1)) rest' ∧ blank w ∧ rest = w +++ rest'.
Proof.
  intros (H & _) Hk. destruct (skip_ws_split rest) as (w & Hw & E).
  exists w, (skip_ws rest). unfold trailing_ts. rewrite decide_False; [done|].
  intros Hp. eapply H; [done|exact E|done|]. by apply begins_peek.
Qed.
Lemma trailing_some p w st ts rest :
  blank w -> stamp st ts -> trailing_ts p (w +++ st +++ rest) = POk (TLeaf p ts) rest.
Proof.
  intros Hw Hs. unfold trailing_ts. rewrite skip_ws_blank by done.
  assert (E : skip_ws (st +++ rest) = st +++ rest ∧ peek (st +++ rest) = lt_char).
  { destruct Hs; simpl; auto. }
  destruct E as [-> ->]. rewrite decide_True by done.
  by rewrite (parse_timestamp_ok0 st ts rest Hs).
Qed.

(** First byte of a value text. *)
Lemma val_text_nonempty k t s : val_text L k t s -> (1 <= slength s)%nat.
Proof.
  destruct 1 as [|k p s Hs|k p s w st ts Hs|k p s w st ts Hst Hw Hs| | | |]; simpl; try lia.
  - destruct Hs as [| txt f d Hn | |]; simpl; try lia.
    destruct (number_head _ _ _ Hn) as (? & ? & -> & _). simpl. lia.
  - rewrite slength_app. destruct Hs as [| txt f d Hn | |]; simpl; try lia.
    destruct (number_head _ _ _ Hn) as (? & ? & -> & _). simpl. lia.
  - destruct Hst; simpl; lia.
Qed.

(** Dispatch of [parse_val] on a scalar. *)
Lemma parse_val_scalar f k p s w rest :
  scalar_text L k p s -> tail_ok (Tail false (no_digit k) (no_dot k)) rest -> blank w ->
  parse_val L (S f) (w +++ s +++ rest) = trailing_ts p rest.
Proof.
  intros Hs Ht Hw. rewrite parse_val_S. cbv zeta. rewrite skip_ws_blank by done.
  assert (Ht' : tail_ok k rest) by (destruct Hs; simpl in *; auto).
  destruct Hs as [txt x Hl|txt x dotted Hn| |].
  - pose proof (parse_primitive_ok0 _ _ _ rest (st_str L txt x Hl)) as E.
    specialize (E ltac:(done) Ht').
    rewrite quoted_app in *. rewrite skip_ws_id by done. cbn [peek].
    repeat (rewrite decide_False by done). rewrite decide_True by done. rewrite E. done.
  - pose proof (parse_primitive_ok0 _ _ _ rest (st_num L txt x dotted Hn)) as E.
    specialize (E ltac:(done) Ht').
    destruct (number_head _ _ _ Hn) as (a & r & -> & Ha).
    rewrite scons_app in *. rewrite skip_ws_id by by apply starts_number_ws. cbn [peek].
    repeat (rewrite decide_False by (by apply starts_number_ne)). rewrite Ha. rewrite E. done.
  - simpl. reflexivity.
  - simpl. reflexivity.
Qed.

Definition P_val (k : tail_cond) (t : tson) (s : string) : Prop :=
  forall f w rest, (2 * slength s <= f)%nat -> blank w -> tail_ok k rest ->
  exists w' rest', parse_val L f (w +++ s +++ rest) = POk t rest' ∧ blank w' ∧ rest = w' +++ rest'.
Definition P_members (m : list (string * tson)) (s : string) : Prop :=
  forall f acc rest, (2 * slength s + 1 <= f)%nat ->
  parse_members L f acc (s +++ "}" +++ rest)
  = POk (TObj (fold_left (fun acc kv => ainsert (fst kv) (snd kv) acc) m acc)) rest.
Definition P_member (k : string) (t : tson) (s : string) : Prop :=
  forall f acc a rest, (2 * slength s + 1 <= S f)%nat -> a = ","%char ∨ a = "}"%char ->
  parse_members L (S f) acc (s +++ String a rest)
  = if decide (a = ","%char) then parse_members L f (ainsert k t acc) rest
    else POk (TObj (ainsert k t acc)) rest.
Definition P_elems (l : list tson) (s : string) : Prop :=
  forall f acc rest, (2 * slength s + 1 <= f)%nat ->
  parse_elems L f acc (s +++ "]" +++ rest) = POk (TArr (acc ++ l)) rest.
Definition P_elem (t : tson) (s : string) : Prop :=
  forall f acc a rest, (2 * slength s + 1 <= S f)%nat -> a = ","%char ∨ a = "]"%char ->
  parse_elems L (S f) acc (s +++ String a rest)
  = if decide (a = ","%char) then parse_elems L f (acc ++ [t]) rest
    else POk (TArr (acc ++ [t])) rest.

Lemma blank_char_digit a : In (N_of_ascii a) [32; 9; 10; 13]%N -> is_digit a = false ∧ a ≠ "."%char ∧ a ≠ "<"%char.
Proof.
  intros H. apply blank_ws in H. repeat split.
  - destruct (is_digit a) eqn:E; auto. apply is_digit_ws in E. congruence.
  - intros ->. done.
  - intros ->. done.
Qed.
(** What stands after a value inside a container never extends it. *)
Lemma tail_ok_sep k w a rest :
  blank w -> a = ","%char ∨ a = "}"%char ∨ a = "]"%char -> tail_ok k (w +++ String a rest).
Proof.
  intros Hw Ha.
  assert (Hh : forall c, begins c (w +++ String a rest) -> is_digit c = false ∧ c ≠ "."%char).
  { intros c [r E]. destruct Hw as [|b w Hb Hw]; simpl in E; injection E as <- _.
    - destruct Ha as [->|[->| ->]]; done.
    - by apply blank_char_digit in Hb as (? & ? & ?). }
  repeat split.
  - intros _ w1 r E Hw1 [r' ->].
    assert (Hs : skip_ws (w +++ String a rest) = String a rest).
    { rewrite skip_ws_blank by done. apply skip_ws_id. destruct Ha as [->|[->| ->]]; done. }
    rewrite E in Hs. rewrite skip_ws_blank in Hs by done. simpl in Hs. injection Hs as <- _.
    destruct Ha as [?|[?|?]]; done.
  - intros _ c z [Hc _]%digit_model Hb. apply Hh in Hb as [? ?]. congruence.
  - intros _ Hb. by apply Hh in Hb as [? ?].
Qed.

Lemma val_text_head k t s :
  val_text L k t s -> exists a r, s = String a r ∧ is_ws a = false ∧ a ≠ "}"%char ∧ a ≠ "]"%char.
Proof.
  assert (Hsc : forall k p s, scalar_text L k p s ->
    exists a r, s = String a r ∧ is_ws a = false ∧ a ≠ "}"%char ∧ a ≠ "]"%char).
  { intros k0 p s0 [txt x Hl|txt x dotted Hn| |].
    - by do 2 eexists.
    - destruct (number_head _ _ _ Hn) as (a & r & -> & Ha). do 2 eexists. split; [done|].
      split; [by apply starts_number_ws|]. split; by apply starts_number_ne.
    - by do 2 eexists.
    - by do 2 eexists. }
  destruct 1 as [|k p s Hs|k p s w st ts Hs|k p s w st ts Hst Hw Hs| | | |];
    try (by do 2 eexists).
  - eauto.
  - destruct (Hsc _ _ _ Hs) as (a & r & -> & ?). simpl. eauto.
  - destruct Hst; simpl; by do 2 eexists.
Qed.

Lemma wrap_retime v ots ts :
  v ≠ TNil -> (ots = Some ts ∨ (ots = None ∧ ts = 0)) -> wrap v ts = Some (retime ots v).
Proof.
  intros Hv H. destruct v; try done; simpl.
  destruct H as [->|[-> ->]]; done.
Qed.

Lemma members_head m s :
  members_text L m s -> exists w r, blank w ∧ s = w +++ String dquote r.
Proof.
  assert (H1 : forall k t s, member_text L k t s -> exists w r, blank w ∧ s = w +++ String dquote r).
  { intros k t s0 H. destruct H as [w1]. do 2 eexists. eauto. }
  destruct 1 as [k t s H|k t s m s' H H']; apply H1 in H as (w & r & Hw & ->).
  - eauto.
  - do 2 eexists. split; [exact Hw|]. rewrite sapp_assoc. done.
Qed.
Lemma elems_head l s :
  elems_text L l s -> exists w a r, blank w ∧ s = w +++ String a r ∧ is_ws a = false ∧ a ≠ "]"%char.
Proof.
  assert (H1 : forall t s, elem_text L t s ->
     exists w a r, blank w ∧ s = w +++ String a r ∧ is_ws a = false ∧ a ≠ "]"%char).
  { intros t s0 H. destruct H as [w1 st ots w2 tl v vs w3 Hw1 Ho Hw2 Hv Hn Hl Hw3].
    destruct Ho as [|st ts Hs].
    - destruct (val_text_head _ _ _ Hv) as (a & r & -> & Ha & _ & Ha').
      exists (w1 +++ w2), a, (r +++ w3). split; [by apply blank_app|].
      split; [|done]. by rewrite sapp_assoc.
    - exists w1. destruct Hs; simpl; do 2 eexists; split; eauto. }
  destruct 1 as [t s H|t s m s' H H']; apply H1 in H as (w & a & r & Hw & -> & Ha & Ha').
  - eauto 10.
  - exists w, a, (r +++ "," +++ s'). rewrite sapp_assoc. done.
Qed.

(** The optional stamp before a ":" or before an element. *)
Lemma opt_stamp_ok st ots w w3 c r :
  opt_stamp st ots -> blank w -> blank w3 -> is_ws c = false -> (ots = None -> c ≠ lt_char) ->
  exists ts, (ots = Some ts ∨ (ots = None ∧ ts = 0)) ∧
  (if decide (peek (skip_ws (w +++ st +++ w3 +++ String c r)) = lt_char)
   then pbind (parse_timestamp (skip_ws (w +++ st +++ w3 +++ String c r)))
          (fun ts r2 => POk ts (skip_ws r2))
   else POk 0 (skip_ws (w +++ st +++ w3 +++ String c r))) = POk ts (String c r).
Proof.
  intros Ho Hw Hw3 Hc Hlt. destruct Ho as [|st ts Hs].
  - exists 0. split; [auto|]. change ("" +++ w3 +++ String c r) with (w3 +++ String c r).
    rewrite !skip_ws_blank by done. rewrite skip_ws_id by done. cbn [peek].
    rewrite decide_False by auto. done.
  - exists ts. split; [auto|]. rewrite !(skip_ws_blank w) by done.
    assert (E : skip_ws (st +++ w3 +++ String c r) = st +++ w3 +++ String c r
                ∧ peek (st +++ w3 +++ String c r) = lt_char).
    { destruct Hs; simpl; auto. }
    destruct E as [-> ->]. rewrite decide_True by done.
    rewrite (parse_timestamp_ok0 st ts _ Hs). cbn [pbind].
    rewrite skip_ws_blank by done. by rewrite skip_ws_id.
Qed.

Lemma parse_complete_mut :
  (forall k t s, val_text L k t s -> P_val k t s) ∧
  (forall m s, members_text L m s -> P_members m s) ∧
  (forall k t s, member_text L k t s -> P_member k t s) ∧
  (forall l s, elems_text L l s -> P_elems l s) ∧
  (forall t s, elem_text L t s -> P_elem t s).
Proof.
  apply text_mutind.
  - (* null *) intros f w rest Hf Hw Ht. destruct f as [|f]; [simpl in Hf; lia|].
    exists "", rest. split; [|split; [constructor|done]].
    rewrite parse_val_S. cbv zeta. rewrite skip_ws_blank by done. simpl. done.
  - (* scalar *) intros k p s Hs f w rest Hf Hw Ht.
    destruct f as [|f].
    { pose proof (val_text_nonempty _ _ _ (vt_scalar L _ _ _ Hs)). lia. }
    rewrite (parse_val_scalar f k p); [|exact Hs| |done].
    2:{ destruct Ht as (_ & H1 & H2). split; [done|]. auto. }
    destruct (trailing_none p _ rest Ht eq_refl) as (w' & rest' & -> & Hw' & ->). eauto.
  - (* scalar stamp *) intros k p s w0 st ts Hs Hw0 Hst f w rest Hf Hw Ht.
    destruct f as [|f].
    { pose proof (val_text_nonempty _ _ _ (vt_scalar_stamp L _ _ _ _ _ _ Hs Hw0 Hst)). lia. }
    exists "", rest. split; [|split; [constructor|done]].
    rewrite sapp_assoc. rewrite (parse_val_scalar f k p); [|exact Hs| |done].
    + rewrite sapp_assoc. by apply trailing_some.
    + split; [done|].
      assert (Hh : forall c, begins c ((w0 +++ st) +++ rest) -> is_digit c = false ∧ c ≠ "."%char).
      { intros c [r E]. destruct Hw0 as [|b w0 Hb Hw0]; simpl in E.
        - destruct Hst; simpl in E; injection E as <- _; done.
        - injection E as <- _. by apply blank_char_digit in Hb as (? & ? & ?). }
      split.
      * intros _ c z [Hc _]%digit_model Hb. apply Hh in Hb as [? ?]. congruence.
      * intros _ Hb. by apply Hh in Hb as [? ?].
  - (* stamp scalar *) intros k p s w0 st ts Hst Hw0 Hs Hb f w rest Hf Hw Ht.
    destruct f as [|f].
    { pose proof (val_text_nonempty _ _ _ (vt_stamp_scalar L _ _ _ _ _ _ Hst Hw0 Hs Hb)). lia. }
    exists "", rest. split; [|split; [constructor|done]].
    rewrite parse_val_S. cbv zeta. rewrite skip_ws_blank by done. rewrite !sapp_assoc.
    assert (E : skip_ws (st +++ w0 +++ s +++ rest) = st +++ w0 +++ s +++ rest
                ∧ peek (st +++ w0 +++ s +++ rest) = lt_char).
    { destruct Hst; simpl; auto. }
    destruct E as [-> ->]. rewrite decide_True by done.
    rewrite (parse_timestamp_ok0 st ts _ Hst). cbn [pbind].
    destruct (skip_ws_split (w0 +++ s +++ rest)) as (w1 & Hw1 & E1).
    assert (E2 : skip_ws (w0 +++ s +++ rest) = s +++ rest).
    { rewrite skip_ws_blank by done. destruct Hs as [|txt x dotted Hn| |]; simpl; auto.
      destruct (number_head _ _ _ Hn) as (a & r & -> & Ha). simpl.
      by rewrite (starts_number_ws _ Ha). }
    rewrite E2. rewrite (parse_primitive_ok0 k p s rest Hs Hb Ht). done.
  - (* {} *) intros w0 Hw0 f w rest Hf Hw Ht. destruct f as [|f]; [simpl in Hf; lia|].
    exists "", rest. split; [|split; [constructor|done]].
    rewrite parse_val_S. cbv zeta. rewrite skip_ws_blank by done. rewrite !bracket_app.
    rewrite skip_ws_id by done. cbn [peek]. rewrite decide_False by done.
    rewrite decide_True by done.
    rewrite (expect_ok "{" _ (w0 +++ "}" +++ rest)); [|done|].
    2:{ by rewrite skip_ws_id. }
    cbn [pbind]. rewrite skip_ws_blank by done. simpl. done.
  - (* {..} *) intros m s Hm IH f w rest Hf Hw Ht. destruct f as [|f]; [simpl in Hf; lia|].
    exists "", rest. split; [|split; [constructor|done]].
    rewrite parse_val_S. cbv zeta. rewrite skip_ws_blank by done. rewrite !bracket_app.
    rewrite skip_ws_id by done. cbn [peek]. rewrite decide_False by done.
    rewrite decide_True by done.
    rewrite (expect_ok "{" _ (s +++ "}" +++ rest)); [|done|].
    2:{ by rewrite skip_ws_id. }
    cbn [pbind].
    destruct (members_head m s Hm) as (w0 & r & Hw0 & Es).
    assert (E : skip_ws (s +++ "}" +++ rest) = String dquote (r +++ "}" +++ rest)).
    { rewrite Es, sapp_assoc, skip_ws_blank by done. simpl. done. }
    rewrite E. rewrite decide_False by done.
    assert (Hskip : forall f acc x, parse_members L f acc (skip_ws x) = parse_members L f acc x).
    { intros [|f0] acc x; [done|]; rewrite !parse_members_S; cbv zeta. by rewrite skip_ws_idem. }
    rewrite <- E, Hskip. rewrite IH; [done|].
    simpl in Hf. rewrite slength_app in Hf. simpl in Hf. lia.
  - (* [] *) intros w0 Hw0 f w rest Hf Hw Ht. destruct f as [|f]; [simpl in Hf; lia|].
    exists "", rest. split; [|split; [constructor|done]].
    rewrite parse_val_S. cbv zeta. rewrite skip_ws_blank by done. rewrite !bracket_app.
    rewrite skip_ws_id by done. cbn [peek]. do 2 rewrite decide_False by done.
    rewrite decide_True by done.
    rewrite (expect_ok "[" _ (w0 +++ "]" +++ rest)); [|done|].
    2:{ by rewrite skip_ws_id. }
    cbn [pbind]. rewrite skip_ws_blank by done. simpl. done.
  - (* [..] *) intros l s Hl IH f w rest Hf Hw Ht. destruct f as [|f]; [simpl in Hf; lia|].
    exists "", rest. split; [|split; [constructor|done]].
    rewrite parse_val_S. cbv zeta. rewrite skip_ws_blank by done. rewrite !bracket_app.
    rewrite skip_ws_id by done. cbn [peek]. do 2 rewrite decide_False by done.
    rewrite decide_True by done.
    rewrite (expect_ok "[" _ (s +++ "]" +++ rest)); [|done|].
    2:{ by rewrite skip_ws_id. }
    cbn [pbind].
    destruct (elems_head l s Hl) as (w0 & a & r & Hw0 & Es & Ha & Ha').
    assert (E : skip_ws (s +++ "]" +++ rest) = String a (r +++ "]" +++ rest)).
    { rewrite Es, sapp_assoc, skip_ws_blank by done. by apply skip_ws_id. }
    rewrite E. rewrite decide_False by done.
    assert (Hskip : forall f acc x, parse_elems L f acc (skip_ws x) = parse_elems L f acc x).
    { intros [|f0] acc x; [done|]; rewrite !parse_elems_S; cbv zeta. by rewrite skip_ws_idem. }
    rewrite <- E, Hskip. rewrite IH; [done|].
    simpl in Hf. rewrite slength_app in Hf. simpl in Hf. lia.
  - (* one member *) intros k t s Hm IH f acc rest Hf. destruct f as [|f]; [lia|].
    simpl String.append at 2. rewrite IH by auto. rewrite decide_False by done. done.
  - (* more members *) intros k t s m s' Hm IH Hms IHs f acc rest Hf. destruct f as [|f]; [lia|].
    rewrite !slength_app in Hf. simpl in Hf.
    rewrite (comma_app s s' "}" rest).
    rewrite IH; [|lia|auto]. rewrite decide_True by done. rewrite IHs by lia. done.
  - (* member *)
    intros w1 txt k w2 st ots w3 w4 tl v vs w5 Hw1 Hl Hw2 Ho Hw3 Hw4 Hv IH Hn Hw5 f acc a rest Hf Ha.
    assert (Es : (w1 +++ String (ascii_of_N 34) (txt +++ String (ascii_of_N 34)
        (w2 +++ st +++ w3 +++ ":" +++ w4 +++ vs +++ w5))) +++ String a rest
        = w1 +++ String dquote (txt +++ String dquote
            (w2 +++ st +++ w3 +++ String ":" (w4 +++ vs +++ w5 +++ String a rest)))).
    { rewrite sapp_assoc, scons_app, sapp_assoc, scons_app. by rewrite !sapp_assoc. }
    rewrite Es. rewrite parse_members_S. cbv zeta. rewrite skip_ws_blank by done. rewrite skip_ws_id by done.
    rewrite (parse_string_ok0 txt k _ Hl). cbn [pbind].
    destruct (opt_stamp_ok st ots w2 w3 ":" (w4 +++ vs +++ w5 +++ String a rest) Ho Hw2 Hw3)
      as (ts & Hts & ->); [done|done|].
    cbn [pbind]. rewrite (expect_ok ":" _ (w4 +++ vs +++ w5 +++ String a rest)) by done.
    cbn [pbind]. rewrite skip_ws_blank by done.
    destruct (val_text_head _ _ _ Hv) as (c & r & Ev & Hc & _).
    assert (Esk : skip_ws (vs +++ w5 +++ String a rest) = vs +++ w5 +++ String a rest).
    { rewrite Ev. simpl. by rewrite Hc. }
    rewrite Esk.
    destruct (IH f "" (w5 +++ String a rest)) as (w' & rest' & Ep & Hw' & Er).
    { rewrite slength_app in Hf. simpl in Hf. rewrite !slength_app in Hf. simpl in Hf.
      rewrite !slength_app in Hf. simpl in Hf. rewrite !slength_app in Hf. lia. }
    { constructor. }
    { apply tail_ok_sep; [done|]. tauto. }
    simpl in Ep. rewrite Ep. cbn [pbind]. rewrite (wrap_retime v ots ts) by done.
    assert (Esr : skip_ws rest' = String a rest).
    { rewrite <- (skip_ws_blank w' rest') by done. rewrite <- Er, skip_ws_blank by done.
      apply skip_ws_id. destruct Ha as [->| ->]; done. }
    rewrite Esr. destruct Ha as [->| ->]; simpl; done.
  - (* one elem *) intros t s Hm IH f acc rest Hf. destruct f as [|f]; [lia|].
    simpl String.append at 2. rewrite IH by auto. rewrite decide_False by done. done.
  - (* more elems *) intros t s l s' Hm IH Hms IHs f acc rest Hf. destruct f as [|f]; [lia|].
    rewrite !slength_app in Hf. simpl in Hf.
    rewrite (comma_app s s' "]" rest).
    rewrite IH; [|lia|auto]. rewrite decide_True by done. rewrite IHs by lia.
    by rewrite <- app_assoc.
  - (* elem *)
    intros w1 st ots w2 tl v vs w3 Hw1 Ho Hw2 Hv IH Hn Hlt Hw3 f acc a rest Hf Ha.
    rewrite parse_elems_S. cbv zeta. rewrite !sapp_assoc.
    destruct (val_text_head _ _ _ Hv) as (c & r & Ev & Hc & _).
    assert (Hcl : ots = None -> c ≠ lt_char).
    { intros HN Hcl. apply (Hlt HN). exists r. rewrite Ev, Hcl. done. }
    assert (Evs : vs +++ w3 +++ String a rest = String c (r +++ w3 +++ String a rest)) by by rewrite Ev.
    rewrite Evs.
    destruct (opt_stamp_ok st ots w1 w2 c (r +++ w3 +++ String a rest) Ho Hw1 Hw2 Hc Hcl)
      as (ts & Hts & ->).
    rewrite <- Evs. cbn [pbind].
    destruct (IH f "" (w3 +++ String a rest)) as (w' & rest' & Ep & Hw' & Er).
    { rewrite !slength_app in Hf. lia. }
    { constructor. }
    { apply tail_ok_sep; [done|]. tauto. }
    simpl in Ep. rewrite Ep. cbn [pbind]. rewrite (wrap_retime v ots ts) by done.
    assert (Esr : skip_ws rest' = String a rest).
    { rewrite <- (skip_ws_blank w' rest') by done. rewrite <- Er, skip_ws_blank by done.
      apply skip_ws_id. destruct Ha as [->| ->]; done. }
    rewrite Esr. destruct Ha as [->| ->]; simpl; done.
Qed.

(** Every text of the grammar is read as the document it denotes. *)
Lemma unmarshal_complete t s : doc_text L t s -> unmarshal L s = Ok t.
Proof.
  intros (w & k & vs & rest & -> & Hw & Hv & Ht). unfold unmarshal.
  destruct (val_text_head _ _ _ Hv) as (c & r & Ev & Hc & _).
  assert (E : skip_ws (w +++ vs +++ rest) = vs +++ rest).
  { rewrite skip_ws_blank by done. rewrite Ev. simpl. by rewrite Hc. }
  rewrite E.
  destruct (proj1 parse_complete_mut _ _ _ Hv (parse_fuel (w +++ vs +++ rest)) "" rest)
    as (w' & rest' & Ep & _).
  - unfold parse_fuel. rewrite !slength_app. lia.
  - constructor.
  - done.
  - simpl in Ep. by rewrite Ep.
Qed.
End parse.
