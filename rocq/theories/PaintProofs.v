(** Areas of spans: rasterization and the filters only use areas given to them
    and 0. *)
From Verif Require Import Base ModelMath ModelHeightfield ModelFilters ModelHistory ModelTriMesh ModelRasterize ModelCompact
  SpecHeightfield HistoryProofs FlowProofs GivesProofs RasterSafe PropertiesHeightfield PropertiesRasterize.
Local Open Scope Z_scope.

Section paint.
  Context (P : Z → Prop) (P0 : P 0).

  Definition painted (hf : hfield) : Prop := ∀ k s, hf_alloc hf !! k = Some s → P (s_area s).

  Lemma painted_get hf k : painted hf → gives (span_get hf k) (λ s, P (s_area s)).
  Proof. intros H s. unfold span_get, unwrap. destruct (_ !! _) eqn:E; [|done]. intros [= <-]. by apply (H k). Qed.
  Lemma painted_put hf k s : painted hf → P (s_area s) → gives (span_put hf k s) painted.
  Proof.
    intros H Hs. unfold span_put. eapply gives_bind; [by apply painted_get|]. intros _ _. apply gives_done.
    intros k' s'. cbn. rewrite lookup_insert_Some. intros [[_ <-]|[_ H']]; [done|]. by apply (H k').
  Qed.
  Lemma painted_link hf col prev n : painted hf → gives (set_link hf col prev n) painted.
  Proof.
    intros H. destruct prev as [p|]; cbn [set_link].
    - eapply gives_bind; [by apply painted_get|]. intros s Hs. by apply painted_put.
    - apply gives_put. intros _. by apply gives_done.
  Qed.
  Lemma painted_delete hf k : painted hf → painted (hf_set_alloc hf (delete k (hf_alloc hf))).
  Proof. intros H k' s'. cbn. rewrite lookup_delete_Some. intros [_ H']. by apply (H k'). Qed.
  Lemma merge_area thr n c : P (s_area n) → P (s_area c) → P (s_area (merge_span thr n c)).
  Proof.
    intros Hn Hc. unfold merge_span. cbn. destruct (_ <=? _); [|done].
    destruct (Z.max_spec (s_area n) (s_area c)) as [[_ ->]|[_ ->]]; done.
  Qed.
  Lemma painted_loop fuel : ∀ hf col thr n prev cur, painted hf → P (s_area n) →
    gives (add_span_loop fuel hf col thr n prev cur) (λ '(hf', n', _), painted hf' ∧ P (s_area n')).
  Proof.
    induction fuel as [|fuel IH]; intros hf col thr n prev [k|] H Hn; cbn [add_span_loop]; try (by apply gives_done); [apply gives_fuel|].
    eapply gives_bind; [by apply painted_get|]. intros c Hc. destruct (_ <? _); [by apply gives_done|]. destruct (_ <? _); [by apply IH|].
    eapply gives_bind; [apply painted_link; by apply painted_delete|]. intros hf2 H2. apply IH; [done|]. by apply merge_area.
  Qed.
  Lemma painted_insert hf s : painted hf → P (s_area s) → painted (slot_insert hf s).1.
  Proof. intros H Hs k s'. cbn. rewrite lookup_insert_Some. intros [[_ <-]|[_ H']]; [done|]. by apply (H k). Qed.
  Lemma painted_add hf i : painted hf → P (s_area (in_span i)) → gives (add_span hf i) (λ r, ∀ hf', r = Some hf' → painted hf').
  Proof.
    intros H Hi. unfold add_span. destruct (_ <=? _)%nat; [by apply gives_done|]. apply gives_get. intros head _.
    eapply gives_bind; [by apply painted_loop|]. intros [[hf1 n] prev] [H1 Hn]. destruct prev as [p|].
    - eapply gives_bind; [by apply painted_get|]. intros sp Hsp.
      pose proof (painted_insert hf1 (with_next n (s_next sp)) H1 Hn) as H2. destruct (slot_insert _ _) as [hf2 k]. cbn [fst] in H2.
      eapply gives_bind; [by apply painted_get|]. intros sp' Hsp'. eapply gives_bind; [by apply painted_put|].
      intros hf3 H3. apply gives_done. by intros ? [= <-].
    - apply gives_get. intros low _. pose proof (painted_insert hf1 (with_next n low) H1 Hn) as H2. destruct (slot_insert _ _) as [hf2 k].
      cbn [fst] in H2. apply gives_put. intros _. apply gives_done. by intros ? [= <-].
  Qed.

  (** A pass over the columns. *)
  Lemma painted_cells w h (f : nat → nat → hfield → outcome hfield) hf : painted hf →
    (∀ x z s, painted s → gives (f x z s) painted) → gives (for_cells w h f hf) painted.
  Proof. intros H Hf. apply (gives_cells (λ _, painted)); [done|]. intros c s _ Hs. by apply Hf. Qed.

  Lemma painted_low_hanging climb hf : painted hf → gives (filter_low_hanging climb hf) painted.
  Proof.
    intros H. apply painted_cells; [done|]. clear. intros x z s. generalize (S (size (hf_alloc s))). generalize (span_key_at s x z).
    intros cur fuel Hs. assert (∀ prev, (∀ m w a, prev = Some (m, w, a) → P a) → gives (low_hanging_col fuel climb s prev cur) painted) as H.
    2:{ by apply H. }
    revert s cur Hs. induction fuel as [|fuel IH]; intros s [k|] Hs prev Hp; cbn [low_hanging_col]; try (by apply gives_done); [apply gives_fuel|].
    eapply gives_bind; [by apply painted_get|]. intros c Hc.
    match goal with |- context [with_area c ?a] => assert (P a) as Ha; [|set (ar := a) in *] end.
    { destruct prev as [[[m w] a]|]; [|done]. destruct (_ && _); [by eapply Hp|done]. }
    eapply gives_bind; [by apply painted_put|]. intros s' Hs'. apply IH; [done|]. by intros m w a [= _ _ <-].
  Qed.
  Lemma painted_ledge wh climb hf : painted hf → gives (filter_ledge wh climb hf) painted.
  Proof.
    intros H. apply painted_cells; [done|]. intros x z s. generalize (S (size (hf_alloc s))). generalize (span_key_at s x z).
    clear H. intros cur fuel. revert s cur. induction fuel as [|fuel IH]; intros s [k|] Hs; cbn [ledge_col]; try (by apply gives_done); [apply gives_fuel|].
    eapply gives_bind; [by apply painted_get|]. intros c Hc. destruct (negb _); [by apply IH|].
    eapply (gives_bind _ _ (λ _, True)); [done|]. intros ceil _. eapply (gives_bind _ _ (λ _, True)); [done|]. intros st _.
    eapply (gives_bind _ _ painted); [|intros s' Hs'; by apply IH]. match goal with |- context [if ?b then span_put _ _ _ else _] => destruct b end; [by apply painted_put|by apply gives_done].
  Qed.
  Lemma painted_low_height wh hf : painted hf → gives (filter_low_height wh hf) painted.
  Proof.
    intros H. apply painted_cells; [done|]. intros x z s. generalize (S (size (hf_alloc s))). generalize (span_key_at s x z).
    clear H. intros cur fuel. revert s cur. induction fuel as [|fuel IH]; intros s [k|] Hs; cbn [low_height_col]; try (by apply gives_done); [apply gives_fuel|].
    eapply gives_bind; [by apply painted_get|]. intros c Hc. eapply (gives_bind _ _ (λ _, True)); [done|]. intros ceil _.
    eapply (gives_bind _ _ painted); [|intros s' Hs'; by apply IH]. destruct (_ <? _); [by apply painted_put|by apply gives_done].
  Qed.
  Lemma painted_filters wh climb hf : painted hf → gives (run_filters wh climb hf) painted.
  Proof.
    intros H. unfold run_filters. eapply gives_bind; [by apply painted_low_hanging|]. intros h1 H1.
    eapply gives_bind; [by apply painted_ledge|]. intros h2 H2. by apply painted_low_height.
  Qed.

  Lemma ends_gives {A} B (m : outcome A) Q R : ends B m Q → gives m R → ends B m (λ a, Q a ∧ R a).
  Proof. intros H G. destruct m as [a| |]; cbn in *; [|done|done]. split; [done|]. by apply G. Qed.
  Lemma painted_triangle hf t area thr : reachable hf → Z.of_nat (hf_w hf) < 65536 → Z.of_nat (hf_h hf) < 65536 →
    0 <= area <= 255 → 0 <= thr <= 65535 → P area → painted hf →
    ends True (rasterize_triangle hf t area thr) (λ r, ∃ hf', r = Some hf' ∧ by_insertions hf hf' ∧ painted hf').
  Proof.
    intros Hr Hw Hh Ha Ht HP Hp. apply rasterize_safe; [|split; [by exists []|done]]. intros x z a b s Hx Hz Hab Hb [Hs Hq].
    eapply ends_mono; [apply ends_gives; [by apply (emit_keeps hf area thr x z a b s)|]|].
    - apply painted_add; [exact Hq|exact HP].
    - cbn. intros r [(s' & -> & Hs') H]. exists s'. split; [done|]. split; [done|]. by apply H.
  Qed.
  Lemma painted_triangles hf m thr : reachable hf → Z.of_nat (hf_w hf) < 65536 → Z.of_nat (hf_h hf) < 65536 →
    Forall (λ a, 0 <= a <= 255 ∧ P a) (tm_areas m) → 0 <= thr <= 65535 → painted hf →
    ends True (rasterize_triangles hf m thr) (λ r, ∃ hf', r = Some hf' ∧ by_insertions hf hf' ∧ painted hf').
  Proof.
    intros Hr Hw Hh Ha Ht Hp. apply foldE_safe; [split; [by exists []|done]|]. intros [i t] s _ [Hs Hq].
    destruct (by_insertions_shape hf s Hr Hs) as (Rs & Sw & Sh & _).
    eapply (ends_bind True _ _ (λ _, True)); [unfold vert, get; by destruct (_ !! _)|]. intros a _.
    eapply (ends_bind True _ _ (λ _, True)); [unfold vert, get; by destruct (_ !! _)|]. intros b _.
    eapply (ends_bind True _ _ (λ _, True)); [unfold vert, get; by destruct (_ !! _)|]. intros c _.
    apply safe_get. intros area Harea. destruct (Forall_lookup_1 _ _ i area Ha Harea) as [Ha1 Ha2]. eapply ends_mono.
    - apply painted_triangle; [done|lia|lia|done|done|done|done].
    - intros r (hf' & -> & Hby & Hq'). exists hf'. split; [done|]. split; [|done]. by eapply by_insertions_trans.
  Qed.
End paint.
