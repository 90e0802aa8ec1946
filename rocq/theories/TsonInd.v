(** Induction principles for nested trees, and equality of documents up to member order. *)
From Verif Require Import Base F64 Tson BaseLemmas.

Section tson_ind.
Context (P : tson -> Prop).
Context (Hnil : P TNil) (Hleaf : forall p ts, P (TLeaf p ts)).
Context (Hobj : forall m, Forall (fun kv => P (snd kv)) m -> P (TObj m)).
Context (Harr : forall l, Forall P l -> P (TArr l)).
Fixpoint tson_ind' (t : tson) : P t :=
  match t with
  | TNil => Hnil
  | TLeaf p ts => Hleaf p ts
  | TObj m => Hobj m ((fix go (m : list (string * tson)) : Forall (fun kv => P (snd kv)) m :=
      match m with
      | [] => Forall_nil_2 _
      | kv :: m' => Forall_cons_2 _ _ _ (tson_ind' (snd kv)) (go m')
      end) m)
  | TArr l => Harr l ((fix go (l : list tson) : Forall P l :=
      match l with
      | [] => Forall_nil_2 _
      | t :: l' => Forall_cons_2 _ _ _ (tson_ind' t) (go l')
      end) l)
  end.
End tson_ind.

Section json_ind.
Context (P : json -> Prop).
Context (Hnull : P JNull) (Hbool : forall b, P (JBool b)) (Hnum : forall f, P (JNum f))
  (Hstr : forall s, P (JStr s)).
Context (Harr : forall l, Forall P l -> P (JArr l)).
Context (Hobj : forall m, Forall (fun kv => P (snd kv)) m -> P (JObj m)).
Fixpoint json_ind' (j : json) : P j :=
  match j with
  | JNull => Hnull
  | JBool b => Hbool b
  | JNum f => Hnum f
  | JStr s => Hstr s
  | JArr l => Harr l ((fix go (l : list json) : Forall P l :=
      match l with
      | [] => Forall_nil_2 _
      | t :: l' => Forall_cons_2 _ _ _ (json_ind' t) (go l')
      end) l)
  | JObj m => Hobj m ((fix go (m : list (string * json)) : Forall (fun kv => P (snd kv)) m :=
      match m with
      | [] => Forall_nil_2 _
      | kv :: m' => Forall_cons_2 _ _ _ (json_ind' (snd kv)) (go m')
      end) m)
  end.
End json_ind.

(** Every object of the tree has distinct keys, as a Go map does. *)
Inductive wf : tson -> Prop :=
| wf_nil : wf TNil
| wf_leaf p ts : wf (TLeaf p ts)
| wf_obj m : NoDup (akeys m) -> Forall (fun kv => wf (snd kv)) m -> wf (TObj m)
| wf_arr l : Forall wf l -> wf (TArr l).

(** The same document: equal up to the order in which object members are listed. *)
Inductive same_doc : tson -> tson -> Prop :=
| sd_nil : same_doc TNil TNil
| sd_leaf p ts : same_doc (TLeaf p ts) (TLeaf p ts)
| sd_arr l l' : Forall2 same_doc l l' -> same_doc (TArr l) (TArr l')
| sd_obj m m' m'' :
    m ≡ₚ m' -> Forall2 (fun a b => fst a = fst b ∧ same_doc (snd a) (snd b)) m' m'' ->
    same_doc (TObj m) (TObj m'').

Lemma same_doc_refl t : same_doc t t.
Proof.
  induction t as [| |m IH|l IH] using tson_ind'.
  - constructor.
  - constructor.
  - apply (sd_obj _ m); [reflexivity|]. induction IH; constructor; auto.
  - constructor. induction IH; constructor; auto.
Qed.

(** Permutation and pointwise relations commute. *)
Lemma Forall2_perm_l {A B} (R : A -> B -> Prop) l k k' :
  Forall2 R l k -> k ≡ₚ k' -> exists l', l ≡ₚ l' ∧ Forall2 R l' k'.
Proof.
  intros HF HP. revert l HF. induction HP as [|x k k' HP IH|x y k|k k' k'' HP1 IH1 HP2 IH2]; intros l HF.
  - inversion HF; subst. by exists [].
  - inversion HF as [|a ? l0 ? Ha Hl]; subst. destruct (IH _ Hl) as (l' & HP' & HF').
    exists (a :: l'). split; [by constructor|by constructor].
  - inversion HF as [|a ? l0 ? Ha Hl]; subst. inversion Hl as [|b ? l1 ? Hb Hl1]; subst.
    exists (b :: a :: l1). split; [constructor|by repeat constructor].
  - destruct (IH1 _ HF) as (l1 & P1 & F1). destruct (IH2 _ F1) as (l2 & P2 & F2).
    exists l2. split; [by etrans|done].
Qed.
Lemma Forall2_flip' {A B} (R : A -> B -> Prop) l k :
  Forall2 R l k -> Forall2 (fun b a => R a b) k l.
Proof. induction 1; constructor; auto. Qed.
Lemma Forall2_perm_r {A B} (R : A -> B -> Prop) l l' k :
  Forall2 R l k -> l ≡ₚ l' -> exists k', k ≡ₚ k' ∧ Forall2 R l' k'.
Proof.
  intros HF HP. apply Forall2_flip' in HF.
  destruct (Forall2_perm_l _ _ _ _ HF HP) as (k' & HP' & HF'). exists k'. split; [done|].
  by apply Forall2_flip' in HF'.
Qed.

Lemma same_doc_sym t u : same_doc t u -> same_doc u t.
Proof.
  revert u. induction t as [| |m IH|l IH] using tson_ind'; intros u H.
  - inversion H. constructor.
  - inversion H. constructor.
  - inversion H as [| | |? m' m'' HP HF]; subst.
    apply Forall2_flip' in HF.
    assert (HF' : Forall2 (fun a b : string * tson => fst a = fst b ∧ same_doc (snd a) (snd b)) m'' m').
    { assert (IH' : Forall (fun kv : string * tson => forall u, same_doc (snd kv) u -> same_doc u (snd kv)) m').
      { by rewrite <- HP. }
      clear -HF IH'. induction HF as [|b a m'' m' [E Hab] HF IHF]; constructor.
      - inversion IH'; subst. auto.
      - inversion IH'; subst. auto. }
    symmetry in HP. destruct (Forall2_perm_l _ _ _ _ HF' HP) as (k & Hk & HFk).
    econstructor; eauto.
  - inversion H as [| |? l' HF|]; subst. constructor. clear H. induction HF; constructor; inversion IH; subst; auto.
Qed.
Lemma same_doc_trans t u v : same_doc t u -> same_doc u v -> same_doc t v.
Proof.
  revert u v. induction t as [| |m IH|l IH] using tson_ind'; intros u v H H'.
  - by inversion H; subst.
  - by inversion H; subst.
  - inversion H as [| | |? m' m'' HP HF]; subst. inversion H' as [| | |? m2 m3 HP' HF']; subst.
    destruct (Forall2_perm_l _ _ _ _ HF HP') as (k & Hk & HFk).
    apply (sd_obj _ k); [by rewrite HP|].
    assert (IH' : Forall (fun kv : string * tson => forall u v, same_doc (snd kv) u -> same_doc u v -> same_doc (snd kv) v) k).
    { by rewrite <- Hk, <- HP. }
    clear -HFk HF' IH'. revert m3 HF'. induction HFk as [|a b k m2 [E Hab] HFk IHF]; intros m3 HF'.
    + inversion HF'. constructor.
    + inversion HF' as [|? c ? m4 [E' Hbc] Hr]; subst. inversion IH'; subst. constructor.
      * split; [congruence|eauto].
      * auto.
  - inversion H as [| |? l' HF|]; subst. inversion H' as [| |? l3 HF'|]; subst. constructor. clear H H'.
    revert l3 HF'. induction HF as [|a b l l' Hab HF IHF]; intros l3 HF'.
    + inversion HF'. constructor.
    + inversion HF'; subst. inversion IH; subst. constructor; eauto.
Qed.
