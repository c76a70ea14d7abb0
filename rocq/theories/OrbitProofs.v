(** Orbits of injective maps on finite sets. *)
From Verif Require Import Base.

Section orbit.
  Context {A K : Type} `{EqDecision A, EqDecision K}.
  Context (f : A → A) (P : A → Prop) (key : A → K) (L : list K).
  Hypothesis (Hf : ∀ s, P s → P (f s)).
  Hypothesis (Hinj : ∀ s t, P s → P t → f s = f t → s = t).
  Hypothesis (Hkey : ∀ s t, P s → P t → key s = key t → s = t).
  Hypothesis (HL : ∀ s, P s → key s ∈ L).

  Definition it (k : nat) (s : A) : A := Nat.iter k f s.

  Lemma it_S k s : it (S k) s = f (it k s).
  Proof. done. Qed.
  Lemma it_add a b s : it (a + b) s = it a (it b s).
  Proof. induction a as [|a IH]; [done|]. change (S a + b) with (S (a + b)). by rewrite !it_S, IH. Qed.
  Lemma it_P k s : P s → P (it k s).
  Proof. induction k; [done|]. intros. rewrite it_S. auto. Qed.
  Lemma it_inj k s t : P s → P t → it k s = it k t → s = t.
  Proof. intros Hs Ht. induction k as [|k IH]; [done|]. rewrite !it_S. intros E. apply IH. apply Hinj; [by apply it_P..|done]. Qed.

  (** The first return. *)
  Definition returns (s : A) (T : nat) : Prop :=
    1 ≤ T ∧ it T s = s ∧ (∀ k, 1 ≤ k → k < T → it k s ≠ s).

  Lemma first_return s : P s → ∃ T, T ≤ length L ∧ returns s T.
  Proof.
    intros Hs.
    assert (Hex : ∃ k, 1 ≤ k ≤ length L ∧ it k s = s).
    { destruct (decide (Exists (λ k, it k s = s) (seq 1 (length L)))) as [H|H].
      - apply Exists_exists in H as (k & Hk & E). apply elem_of_seq in Hk. exists k. split; [lia|done].
      - exfalso. rewrite <-Forall_Exists_neg in H. rewrite Forall_forall in H.
        assert (NoDup ((λ k, key (it k s)) <$> seq 0 (S (length L)))) as Hnd.
        { apply NoDup_alt. intros a b x Ha Hb. rewrite list_lookup_fmap in Ha, Hb.
          destruct (seq 0 (S (length L)) !! a) as [a'|] eqn:Ea; [|done]. destruct (seq 0 (S (length L)) !! b) as [b'|] eqn:Eb; [|done].
          apply lookup_seq in Ea as [-> Ha']. apply lookup_seq in Eb as [-> Hb']. cbn in Ha, Hb.
          injection Ha as <-. injection Hb as Hb.
          apply Hkey in Hb; [|by apply it_P..].
          assert (Hno : ∀ a b, b < S (length L) → a < b → it b s ≠ it a s).
          { clear -H Hinj Hf Hs. intros a b Hb Hab E. replace b with (a + (b - a)) in E by lia. rewrite it_add in E.
            apply it_inj in E; [|by apply it_P|done]. apply (H (b - a)); [apply elem_of_seq; lia|done]. }
          destruct (lt_eq_lt_dec a b) as [[?| ->]|?]; [|done|].
          - exfalso. by apply (Hno a b).
          - exfalso. by apply (Hno b a). }
        apply NoDup_submseteq with (k := L) in Hnd.
        + apply submseteq_length in Hnd. rewrite fmap_length, seq_length in Hnd. lia.
        + intros x Hx. apply elem_of_list_fmap in Hx as (k & -> & _). by apply HL, it_P. }
    destruct Hex as (k & Hk & E).
    (* the least one *)
    revert Hk E. induction k as [k IH] using lt_wf_ind. intros Hk E.
    destruct (decide (Exists (λ k', it k' s = s) (seq 1 (k - 1)))) as [H|H].
    - apply Exists_exists in H as (k' & Hk' & E'). apply elem_of_seq in Hk'. apply (IH k'); [lia|lia|done].
    - exists k. split; [lia|]. split; [lia|]. split; [done|]. intros k' H1 H2 E'.
      apply H. apply Exists_exists. exists k'. split; [apply elem_of_seq; lia|done].
  Qed.

  Lemma returns_distinct s T a b : P s → returns s T → a < T → b < T → it a s = it b s → a = b.
  Proof.
    intros Hs (H1 & H2 & H3).
    assert (Hno : ∀ a b, b < T → a < b → it b s ≠ it a s).
    { intros a' b' Hb Hab E. replace b' with (a' + (b' - a')) in E by lia. rewrite it_add in E.
      apply it_inj in E; [|by apply it_P|done]. apply (H3 (b' - a')); [lia|lia|done]. }
    intros Ha Hb E. destruct (lt_eq_lt_dec a b) as [[?| ->]|?]; [|done|].
    - exfalso. by apply (Hno a b).
    - exfalso. by apply (Hno b a).
  Qed.

  (** Orbits that meet are equal. *)
  Lemma it_mod s T k : returns s T → it k s = it (k mod T) s.
  Proof.
    intros (H1 & H2 & _). rewrite (Nat.div_mod k T) at 1 by lia.
    rewrite Nat.add_comm, it_add. f_equal. generalize (k / T). intros q. clear -H2.
    induction q as [|q IH]; [by rewrite Nat.mul_0_r|].
    rewrite Nat.mul_succ_r, it_add, H2. done.
  Qed.

  Lemma orbit_back s T k : P s → returns s T → ∃ k', it k' (it k s) = s.
  Proof.
    intros Hs HT. pose proof HT as (H1 & H2 & _). exists (T - k mod T). rewrite (it_mod s T k HT).
    pose proof (Nat.mod_upper_bound k T). rewrite <-it_add. replace (T - k mod T + k mod T) with T by lia. done.
  Qed.

  Definition same_orbit (s t : A) : Prop := ∃ k, it k s = t.
  Lemma same_orbit_trans s t u : same_orbit s t → same_orbit t u → same_orbit s u.
  Proof. intros [a <-] [b <-]. exists (b + a). by rewrite it_add. Qed.
  Lemma same_orbit_sym s t : P s → same_orbit s t → same_orbit t s.
  Proof.
    intros Hs [k <-]. destruct (first_return s Hs) as (T & _ & HT). destruct (orbit_back s T k Hs HT) as [k' E]. by exists k'.
  Qed.
  Lemma same_orbit_first s T t : P s → returns s T → same_orbit s t → ∃ k, k < T ∧ it k s = t.
  Proof.
    intros Hs HT [k <-]. exists (k mod T). split.
    - destruct HT as (? & _). by apply Nat.mod_upper_bound; lia.
    - symmetry. by apply it_mod.
  Qed.
End orbit.
