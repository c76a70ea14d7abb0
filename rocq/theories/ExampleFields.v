(** Concrete compact heightfields used to show that hypotheses are met. *)
From Verif Require Import Base ModelMath ModelHeightfield ModelCompact SpecHeightfield SpecCompact
  SpecDistance.
Local Open Scope Z_scope.

(** Checking well-formedness by computation. *)
Definition wf_chf_b (ch : chf) : bool :=
  (length (ch_cells ch) =? ch_w ch * ch_h ch)%nat &&
  (length (ch_areas ch) =? length (ch_spans ch))%nat &&
  forallb (λ c, match ch_cells ch !! c with
                | Some cell => (cc_count cell =? 0)%nat || (cc_index cell =? cell_start (ch_cells ch) c)%nat
                | None => true end) (seq 0 (length (ch_cells ch))) &&
  (cell_start (ch_cells ch) (length (ch_cells ch)) =? length (ch_spans ch))%nat &&
  forallb (λ c, match ch_cells ch !! c with
    | None => true
    | Some cell => forallb (λ i, match ch_spans ch !! i with
      | None => true
      | Some s => forallb (λ d, match connection s d with
        | None => true
        | Some k => match nb_col (ch_w ch) (ch_h ch) (c mod ch_w ch) (c / ch_w ch) d with
          | None => false
          | Some c' => match ch_cells ch !! c' with
            | None => false
            | Some cell' => (Z.to_nat k <? cc_count cell')%nat end end end) (seq 0 4) end)
      (index_range cell) end) (seq 0 (length (ch_cells ch))).

Lemma forallb_elem {A} (f : A → bool) l a : forallb f l = true → a ∈ l → f a = true.
Proof. intros H Ha. rewrite forallb_forall in H. apply H. by apply elem_of_list_In. Qed.

Lemma wf_chf_b_ok ch : wf_chf_b ch = true → wf_chf ch.
Proof.
  unfold wf_chf_b. intros H. apply andb_prop in H as [H H5]. apply andb_prop in H as [H H4].
  apply andb_prop in H as [H H3]. apply andb_prop in H as [H1 H2].
  apply Nat.eqb_eq in H1, H2, H4. split; [done|done| |done|].
  - intros c cell Hc Hpos. apply (forallb_elem _ _ c) in H3.
    + cbn beta in H3. rewrite Hc in H3. apply orb_prop in H3 as [H3|H3]; [apply Nat.eqb_eq in H3; lia|by apply Nat.eqb_eq].
    + apply elem_of_seq. apply lookup_lt_Some in Hc. lia.
  - intros x z cell i s d k Hx Hz Hc Hi Hs Hd Hk.
    apply (forallb_elem _ _ (x + z * ch_w ch)%nat) in H5.
    2:{ apply elem_of_seq. apply lookup_lt_Some in Hc. lia. }
    cbn beta in H5. rewrite Hc in H5. apply (forallb_elem _ _ i) in H5; [|done]. cbn beta in H5. rewrite Hs in H5.
    apply (forallb_elem _ _ d) in H5; [|apply elem_of_seq; lia]. cbn beta in H5. rewrite Hk in H5.
    rewrite Nat.mod_add, Nat.div_add in H5 by lia. rewrite Nat.mod_small, Nat.div_small in H5 by lia.
    cbn [Nat.add] in H5.
    destruct (nb_col _ _ x z d) as [c'|]; [|done]. destruct (ch_cells ch !! c') as [cell'|] eqn:E; [|done].
    exists c', cell'. split_and!; [done..|]. by apply Nat.ltb_lt.
Qed.

(** Deciding [linked]. *)
Definition linked_b (ch : chf) (c k d c' k' : nat) : bool :=
  match ch_cells ch !! c with
  | None => false
  | Some cell =>
    (k <? cc_count cell)%nat &&
    match ch_spans ch !! (cc_index cell + k)%nat with
    | None => false
    | Some s => bool_decide (connection s d = Some (Z.of_nat k')) &&
      bool_decide (nb_col (ch_w ch) (ch_h ch) (c mod ch_w ch) (c / ch_w ch) d = Some c')
    end
  end.
Lemma linked_b_iff ch c k d c' k' : linked_b ch c k d c' k' = true ↔ linked ch c k d c' k'.
Proof.
  unfold linked_b, linked, span_in. split.
  - destruct (ch_cells ch !! c) as [cell|]; [|done]. intros [Hk H]%andb_prop.
    destruct (ch_spans ch !! _) as [s|] eqn:Es; [|done]. apply andb_prop in H as [H1 H2].
    apply bool_decide_eq_true in H1, H2. exists s. split_and!; [|done|done].
    exists cell. split_and!; [done| |done]. by apply Nat.ltb_lt.
  - intros (s & (cell & -> & Hk & ->) & H1 & H2). apply Nat.ltb_lt in Hk. rewrite Hk. cbn.
    by rewrite !bool_decide_eq_true_2.
Qed.

(** Deciding [step] between given columns. *)
Definition step_b (ch : chf) (c k d c' k' i j : nat) : bool :=
  linked_b ch c k d c' k' &&
  match ch_cells ch !! c, ch_cells ch !! c' with
  | Some cell, Some cell' => (i =? cc_index cell + k)%nat && (j =? cc_index cell' + k')%nat
  | _, _ => false
  end.
Lemma step_b_ok ch c k d c' k' i j : step_b ch c k d c' k' i j = true → step ch i d j.
Proof.
  unfold step_b. intros [H1 H2]%andb_prop. apply linked_b_iff in H1.
  destruct (ch_cells ch !! c) as [cell|] eqn:E; [|done]. destruct (ch_cells ch !! c') as [cell'|] eqn:E'; [|done].
  apply andb_prop in H2 as [H2 H3]. apply Nat.eqb_eq in H2, H3. by exists c, k, c', k', cell, cell'.
Qed.

(** A flat floor: one span per cell, connected to all its neighbours. *)
Definition flat_span (w h c : nat) : cspan :=
  CS 0 0 (foldl (λ data d, set_con_bits data d
      (match nb_col w h (c mod w) (c / w) d with Some _ => Some 0 | None => None end))
    (set_height_bits 0 255) (seq 0 4)).
Definition flat (w h : nat) (areas : list Z) : chf :=
  mkChf w h 10 1 0 0 0 geo0 ((λ c, CC c 1) <$> seq 0 (w * h)) (flat_span w h <$> seq 0 (w * h)) [] areas.

(** A 7 x 7 floor of one area, with an unwalkable span in the middle of it. *)
Definition floor7 : chf := flat 7 7 (repeat 255 24 ++ [0] ++ repeat 255 24).
Lemma floor7_wf : wf_chf floor7.
Proof. apply wf_chf_b_ok. by vm_compute. Qed.
(** A 9 x 9 floor of one area. *)
Definition floor9 : chf := flat 9 9 (repeat 255 81).
Lemma floor9_wf : wf_chf floor9.
Proof. apply wf_chf_b_ok. by vm_compute. Qed.

(** A corridor, three cells wide, that winds twice around a pillar: in every
    column outside the pillar there are two spans, and crossing the line
    between rows 3 and 4 changes the level. *)
Definition helix_hole (x z : nat) : bool := (3 <=? x)%nat && (x <=? 5)%nat && (3 <=? z)%nat && (z <=? 5)%nat.
Definition helix_nb (x z l d : nat) : option nat :=
  match nb_col 9 9 x z d with
  | None => None
  | Some c => if helix_hole (c mod 9) (c / 9) then None
    else if (x <=? 2)%nat && (z =? 3)%nat && (d =? 1)%nat then (if (l =? 0)%nat then Some 1%nat else None)
    else if (x <=? 2)%nat && (z =? 4)%nat && (d =? 3)%nat then (if (l =? 1)%nat then Some 0%nat else None)
    else Some l
  end.
Definition helix_span (x z l : nat) : cspan :=
  CS (Z.of_nat l * 20) 0 (foldl (λ data d, set_con_bits data d (Z.of_nat <$> helix_nb x z l d)) (set_height_bits 0 10) (seq 0 4)).
Definition helix_spans : list cspan := 
  concat ((λ c, if helix_hole (c mod 9) (c / 9) then [] else [helix_span (c mod 9) (c / 9) 0; helix_span (c mod 9) (c / 9) 1]) <$> seq 0 81).
Definition helix_cells : list ccell :=
  (λ c, CC (2 * length (filter (λ c', helix_hole (c' mod 9) (c' / 9) = false) (seq 0 c))) (if helix_hole (c mod 9) (c / 9) then 0 else 2)) <$> seq 0 81.
Definition helix : chf := mkChf 9 9 10 1 0 0 0 geo0 helix_cells helix_spans [] (repeat 255 144).
Lemma helix_wf : wf_chf helix.
Proof. apply wf_chf_b_ok. by vm_compute. Qed.

(** Deciding [symmetric]. *)
Definition symmetric_b (ch : chf) : bool :=
  forallb (λ c, match ch_cells ch !! c with
    | None => true
    | Some cell => forallb (λ k, match ch_spans ch !! (cc_index cell + k)%nat with
      | None => true
      | Some s => forallb (λ d, match connection s d, nb_col (ch_w ch) (ch_h ch) (c mod ch_w ch) (c / ch_w ch) d with
        | Some v, Some c' => linked_b ch c' (Z.to_nat v) ((d + 2) mod 4) c k
        | _, _ => true end) (seq 0 4) end) (seq 0 (cc_count cell)) end) (seq 0 (length (ch_cells ch))).
Lemma symmetric_b_ok ch : symmetric_b ch = true → symmetric ch.
Proof.
  unfold symmetric_b. intros H c k d c' k' Hd (s & (cell & Hc & Hk & Hs) & Hv & Hn).
  apply (forallb_elem _ _ c) in H; [|apply elem_of_seq; apply lookup_lt_Some in Hc; lia]. cbn beta in H. rewrite Hc in H.
  apply (forallb_elem _ _ k) in H; [|apply elem_of_seq; lia]. cbn beta in H. rewrite Hs in H.
  apply (forallb_elem _ _ d) in H; [|apply elem_of_seq; lia]. cbn beta in H. rewrite Hv, Hn, Nat2Z.id in H.
  by apply linked_b_iff.
Qed.
