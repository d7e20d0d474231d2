(** AgreeThm: programs of Forest-trait calls against the families they stand for. *)
From Coq Require Import List Arith Lia Bool Permutation Sorted.
From Verif Require Import Base DD Spec Zdd2Model Zdd2Settle Zdd2Resort Zdd2Exact2 Zdd2Thm MatrixModel MatrixProofs MatrixThm AgreeSpec.
Import ListNotations.
From Verif Require Zdd2Forest.

Section Ext.
  Context {T : Type} `{OT : Ord T}.
  Implicit Types (fs gs ls hs : list (list T)) (x y z : T).
  Definition same_fam fs gs := forall t, In t fs <-> In t gs.

  Lemma before_ext (c d : T -> nat) x y : (forall z, c z = d z) -> before c x y -> before d x y.
  Proof. intros E. unfold before. rewrite !E. auto. Qed.
  Lemma leads_ext (c d : T -> nat) y fs gs : (forall z, c z = d z) -> same_fam fs gs -> leads c y fs -> leads d y gs.
  Proof.
    intros E S ((t & It & Iy) & L). split.
    - exists t. split; [apply S; exact It|exact Iy].
    - intros t' z It' Iz. apply S in It'. destruct (L t' z It' Iz) as [->|B]; [left; reflexivity|right].
      eapply before_ext; eauto.
  Qed.
  Lemma without_ext y fs gs : same_fam fs gs -> same_fam (without y fs) (without y gs).
  Proof. intros S t. unfold without. rewrite !filter_In, (S t). tauto. Qed.
  Lemma link_ext y fs gs : same_fam fs gs -> same_fam (link y fs) (link y gs).
  Proof.
    intros S t. unfold link. rewrite !in_map_iff. split; intros (u & E & I); exists u; (split; [exact E|]);
      rewrite filter_In in *; rewrite (S u) in *; tauto.
  Qed.
  Lemma sinks_ext (c d : T -> nat) x ls hs : (forall z, c z = d z) -> sinks c x ls hs ->
    forall ls' hs', same_fam ls ls' -> same_fam hs hs' -> sinks d x ls' hs'.
  Proof.
    intros E S. induction S as [ls hs B|y ls hs B L L' S1 IH1 S2 IH2|y ls hs B L A C S1 IH1]; intros ls' hs' El Eh.
    - apply sinks_stay. intros t z It Iz. apply Eh in It. eapply before_ext; eauto.
    - apply (sinks_both d x y).
      + eapply before_ext; eauto.
      + eapply leads_ext; eauto.
      + eapply leads_ext; eauto.
      + apply IH1; apply without_ext; assumption.
      + apply IH2; apply link_ext; assumption.
    - apply (sinks_forced d x y).
      + eapply before_ext; eauto.
      + eapply leads_ext; eauto.
      + intros t It. apply A, Eh, It.
      + intros t It Iy. apply El in It. destruct (C t It Iy) as (z & Iz & Bz). exists z. split; [exact Iz|].
        eapply before_ext; eauto.
      + apply IH1; [intros t; tauto|apply link_ext; assumption].
  Qed.
  Lemma settles_ext (c c' d d' : T -> nat) fs : (forall z, c z = d z) -> (forall z, c' z = d' z) -> settles c c' fs ->
    forall gs, same_fam fs gs -> settles d d' gs.
  Proof.
    intros E E' S. induction S as [fs N|x fs L S1 IH1 S2 IH2 K]; intros gs F.
    - apply settles_done. intros t x It. apply F in It. exact (N t x It).
    - apply (settles_split d d' x).
      + eapply leads_ext; eauto.
      + apply IH1, without_ext, F.
      + apply IH2, link_ext, F.
      + eapply sinks_ext; [exact E'|exact K|apply without_ext, F|apply link_ext, F].
  Qed.
  Lemma count_same fs gs x : NoDup fs -> NoDup gs -> same_fam fs gs -> count fs x = count gs x.
  Proof. intros A B S. apply MatrixProofs.count_perm. apply NoDup_Permutation; auto. Qed.
  Lemma settled_ext ts us ts' us' : NoDup ts -> NoDup us -> NoDup ts' -> NoDup us' ->
    same_fam ts ts' -> same_fam us us' -> settled ts us -> settled ts' us'.
  Proof.
    intros A B A' B' S S' K. unfold settled in *. eapply settles_ext; [| |exact K|exact S].
    - intros z. apply count_same; auto.
    - intros z. cbn. rewrite (count_same ts ts' z), (count_same us us' z); auto.
  Qed.
  Lemma nps_ext ts us ts' us' : same_fam ts ts' -> same_fam us us' -> no_proper_subset ts us -> no_proper_subset ts' us'.
  Proof. intros S S' N a b Ia Ib. apply N; [apply S; exact Ia|apply S'; exact Ib]. Qed.
  Lemma begins_ext (c d : T -> nat) x t : (forall z, c z = d z) -> begins c x t <-> begins d x t.
  Proof.
    intros E. unfold begins. split; intros (A & B); (split; [exact A|]); intros z Z; destruct (B z Z) as [->|C]; auto; right;
      (eapply before_ext; [|exact C]); intros w; [|symmetry]; apply E.
  Qed.
  Lemma pushed_ext (c d : T -> nat) x ls hs es : (forall z, c z = d z) -> pushed c x ls hs es ->
    forall ls' hs' es', same_fam ls ls' -> same_fam hs hs' -> same_fam es es' -> pushed d x ls' hs' es'.
  Proof.
    intros E S. assert (E' : forall z, d z = c z) by (intros z; symmetry; apply E).
    induction S as [ls hs es N Q|ls hs es (t0 & T0) F Q|y ls hs es e0 e1 B L1 L2 P0 IH0 P1 IH1 Q|y ls hs es e1 B L1 L2 P1 IH1 Q];
      intros ls' hs' es' Ql Qh Qe.
    - apply pushed_none; intros t; [intros J; apply Qh in J; exact (N t J)|]. rewrite <- (Qe t), <- (Ql t). apply Q.
    - apply pushed_top; [exists t0; apply Qh, T0| |].
      + intros t z J Z. apply Qh in J. eapply before_ext; eauto.
      + intros t. rewrite <- (Qe t), <- (Ql t), (Q t).
        split; (intros [J|(s & J & W)]; [auto|right; exists s; split; [apply Qh, J|exact W]]).
    - apply (pushed_both d x y ls' hs' es' e0 e1).
      + eapply before_ext; eauto.
      + eapply leads_ext; eauto.
      + eapply leads_ext; eauto.
      + apply IH0; [apply without_ext; assumption|apply without_ext; assumption|intros t; tauto].
      + apply IH1; [apply link_ext; assumption|apply link_ext; assumption|intros t; tauto].
      + intros t. rewrite <- (Qe t). apply Q.
    - apply (pushed_high d x y ls' hs' es' e1).
      + eapply before_ext; eauto.
      + intros L. apply L1. eapply leads_ext; [exact E'| |exact L]. intros t. symmetry. apply Ql.
      + eapply leads_ext; eauto.
      + apply IH1; [apply without_ext; assumption|apply link_ext; assumption|intros t; tauto].
      + intros t. rewrite <- (Qe t), (Q t), (Ql t), (begins_ext c d y t E). reflexivity.
  Qed.
  Lemma resorted_ext (c c' d d' : T -> nat) fs es : (forall z, c z = d z) -> (forall z, c' z = d' z) -> resorted c c' fs es ->
    forall fs' es', same_fam fs fs' -> same_fam es es' -> resorted d d' fs' es'.
  Proof.
    intros E E' S. induction S as [fs es N Q|x fs l h es L S1 IH1 S2 IH2 P]; intros fs' es' F G.
    - apply resorted_done; [intros t x It; apply F in It; exact (N t x It)|]. intros t. rewrite <- (F t), <- (G t). apply Q.
    - apply (resorted_split d d' x fs' l h).
      + eapply leads_ext; eauto.
      + apply IH1; [apply without_ext, F|intros t; tauto].
      + apply IH2; [apply link_ext, F|intros t; tauto].
      + eapply pushed_ext; [exact E'|exact P| | |exact G]; intros t; tauto.
  Qed.
  Lemma resort_by_ext ts us ts' us' es : NoDup ts -> NoDup us -> NoDup ts' -> NoDup us' ->
    same_fam ts ts' -> same_fam us us' -> resort_by ts us es -> resort_by ts' us' es.
  Proof.
    intros A B A' B' S S' K. unfold resort_by in *. eapply resorted_ext; [| |exact K|exact S|intros t; tauto].
    - intros z. apply count_same; auto.
    - intros z. cbn. rewrite (count_same ts ts' z), (count_same us us' z); auto.
  Qed.
  (** [met] and [met_all] depend on the counts only through their values *)
  Lemma upto_ext (c d : T -> nat) k x : (forall z, c z = d z) -> upto c k x <-> upto d k x.
  Proof.
    intros E. destruct k as [b|]; cbn; [|tauto]. split; intros [->|B]; auto; right; (eapply before_ext; [|exact B]);
      intros z; [|symmetry]; apply E.
  Qed.
  Lemma agree_upto_ext (c d : T -> nat) k g t : (forall z, c z = d z) -> agree_upto c k g t <-> agree_upto d k g t.
  Proof. intros E. unfold agree_upto. split; intros A x U; apply A, (upto_ext c d k x E), U. Qed.
  Lemma agree_after_ext (c d : T -> nat) k g t : (forall z, c z = d z) -> agree_after c k g t <-> agree_after d k g t.
  Proof. intros E. unfold agree_after. split; intros A x U; apply A; intros V; apply U, (upto_ext c d k x E), V. Qed.
  Lemma ends_along_cext (c d : T -> nat) us t : (forall z, c z = d z) -> ends_along c us t -> ends_along d us t.
  Proof.
    intros E (k & (g & G & A) & B). exists k. split.
    - exists g. split; [exact G|]. apply (agree_upto_ext c d k g t E), A.
    - intros g' x G' A' X. apply (upto_ext c d k x E), (B g' x G'); [|exact X]. apply (agree_upto_ext c d k g' t E), A'.
  Qed.
  Lemma met_cext (c d : T -> nat) fs gs fs' gs' t : (forall z, c z = d z) -> same_fam fs fs' -> same_fam gs gs' ->
    met c fs gs t <-> met d fs' gs' t.
  Proof.
    intros E F G. rewrite (met_ext c fs fs' gs gs' t F G).
    assert (E' : forall z, d z = c z) by (intros z; symmetry; apply E).
    unfold met. split; (intros [A|[(A & B)|(A & B)]]; [auto| |]); right; [left|right|left|right]; (split; [exact A|]);
      eapply ends_along_cext; eauto.
  Qed.
  Lemma met_all_fun (c d : T -> nat) ts ts' es : (forall z, c z = d z) -> same_fam ts ts' -> forall fs fs' tr tr', same_fam fs fs' ->
    met_all c ts fs es tr -> met_all d ts' fs' es tr' -> same_fam tr tr'.
  Proof.
    intros E Q. induction es as [|e es IH]; intros fs fs' tr tr' F; cbn [met_all].
    - intros A B t. rewrite (A t), (B t). apply F.
    - intros (gs & G & A) (gs' & G' & B). eapply IH; [|exact A|exact B]. intros t. rewrite (G t), (G' t).
      apply met_cext; [exact E|exact F|apply without_ext, Q].
  Qed.
  Lemma same_rest_ext (c d : T -> nat) k ts us a b ts' us' : (forall z, c z = d z) -> same_fam ts ts' -> same_fam us us' ->
    same_rest c k ts a us b -> same_rest d k ts' a us' b.
  Proof.
    intros E F G (A & B). split.
    - intros g J U. apply F in J. apply (agree_upto_ext c d k g a E) in U. destruct (A g J U) as (g' & J' & U' & V).
      exists g'. split; [apply G, J'|]. split; [apply (agree_upto_ext c d k g' b E), U'|apply (agree_after_ext c d k g g' E), V].
    - intros g J U. apply G in J. apply (agree_upto_ext c d k g b E) in U. destruct (B g J U) as (g' & J' & U' & V).
      exists g'. split; [apply F, J'|]. split; [apply (agree_upto_ext c d k g' a E), U'|apply (agree_after_ext c d k g g' E), V].
  Qed.

End Ext.

Section Den.
  Context {T : Type} `{OT : Ord T}.
  Implicit Types p : fexpr T.

  Lemma sets_in (l : list (list T)) t : In t (sets l) <-> exists s, In s l /\ t = filter_repeats s.
  Proof.
    unfold sets. rewrite filter_repeats_in, in_map_iff. split; intros (s & A & B); exists s; auto.
  Qed.
  Lemma family_ok p : NoDup (family p) /\ (forall t, In t (family p) -> ssorted t).
  Proof.
    assert (F : forall (g : list T -> bool) l, NoDup l /\ (forall t, In t l -> ssorted t) ->
      NoDup (filter g l) /\ (forall t, In t (filter g l) -> ssorted t)).
    { intros g l (A & B). split; [apply NoDup_filter; exact A|]. intros t I. apply filter_In in I. apply B, I. }
    assert (S : forall l : list (list T), NoDup (sets l) /\ (forall t, In t (sets l) -> ssorted t)).
    { intros l. split; [apply ssorted_NoDup, filter_repeats_ssorted|]. intros t I. apply sets_in in I.
      destruct I as (s & _ & ->). apply filter_repeats_ssorted. }
    induction p; cbn [family]; auto. split; [constructor|intros t []].
  Qed.
  Lemma fr_id (t : list T) : ssorted t -> filter_repeats t = t.
  Proof. intros S. apply ssorted_ext; [apply filter_repeats_ssorted|exact S|apply filter_repeats_in]. Qed.

  (** C30.  The matrix forests compute the family, for every program. *)
  Lemma matrix_family p g : runm p g -> forall t, In t (mts g) <-> In t (family p).
  Proof.
    induction 1 as [|s|m|s|h a b f g Ra IHa Rb IHb|h a b f g Ra IHa Rb IHb|h a b f g Ra IHa Rb IHb
                   |h a f e Ra IHa|h a f e Ra IHa|h a f es Ra IHa|h a f es Ra IHa]; intros t; cbn [family].
    - reflexivity.
    - rewrite sets_in. split.
      + intros [<-|[]]. exists s. split; [left; reflexivity|reflexivity].
      + intros (s' & [<-|[]] & ->). left; reflexivity.
    - rewrite m_many_in, sets_in. reflexivity.
    - rewrite m_unique_in, sets_in. split.
      + intros (x & I & ->). exists [x]. split; [apply in_map_iff; exists x; auto|]. reflexivity.
      + intros (s' & I & ->). apply in_map_iff in I. destruct I as (x & <- & I). exists x. split; [exact I|reflexivity].
    - rewrite (proj2 (m_union_spec h f g (reach_minv _ (runm_reach _ _ Ra)) (reach_minv _ (runm_reach _ _ Rb))) t), sets_in.
      rewrite (IHa t), (IHb t). split.
      + intros I. exists t. rewrite in_app_iff. split; [exact I|]. symmetry. apply fr_id.
        destruct I as [I|I]; [exact (proj2 (family_ok a) t I)|exact (proj2 (family_ok b) t I)].
      + intros (s & I & ->). apply in_app_iff in I.
        rewrite fr_id; [exact I|]. destruct I as [I|I]; [exact (proj2 (family_ok a) s I)|exact (proj2 (family_ok b) s I)].
    - rewrite (proj2 (m_intersect_spec h f g (reach_minv _ (runm_reach _ _ Ra)) (reach_minv _ (runm_reach _ _ Rb))) t).
      rewrite filter_In, (memb_spec t), (IHa t), (IHb t). reflexivity.
    - rewrite (proj2 (m_product_spec h f g) t), sets_in. split.
      + intros (u & v & Iu & Iv & ->). exists (u ++ v). split; [|reflexivity]. apply in_map_iff. exists (u, v).
        split; [reflexivity|]. apply in_prod; [apply IHa; exact Iu|apply IHb; exact Iv].
      + intros (s & I & ->). apply in_map_iff in I. destruct I as ([u v] & <- & I). apply in_prod_iff in I.
        exists u, v. rewrite (IHa u), (IHb v). cbn. tauto.
    - rewrite (proj2 (m_subset_spec h f e (reach_minv _ (runm_reach _ _ Ra))) t), filter_In, memb_spec, (IHa t). reflexivity.
    - rewrite (proj2 (m_subset_not_spec h f e (reach_minv _ (runm_reach _ _ Ra))) t), filter_In, (IHa t).
      rewrite negb_memb. reflexivity.
    - rewrite (proj2 (m_subset_all_spec h f es (reach_minv _ (runm_reach _ _ Ra))) t), filter_In, (IHa t), forallb_forall.
      split; intros (A & B); (split; [exact A|]); intros e I; specialize (B e I); rewrite memb_spec in *; exact B.
    - rewrite (proj2 (m_subset_none_spec h f es (reach_minv _ (runm_reach _ _ Ra))) t), filter_In, (IHa t), forallb_forall.
      split; intros (A & B); (split; [exact A|]); intros e I; specialize (B e I); rewrite negb_memb in *; exact B.
  Qed.

  Lemma proper_in (ts : list (list T)) t : In t (proper ts) <-> t <> [] /\ In t ts.
  Proof. unfold proper. rewrite filter_In. destruct t; split; intros []; split; try congruence; auto. Qed.
  Lemma proper_all (ts : list (list T)) : ~ In [] ts -> forall t, In t (proper ts) <-> In t ts.
  Proof. intros N t. rewrite proper_in. split; [tauto|]. intros I. split; [|exact I]. intros ->. contradiction. Qed.

  Lemma orderly_exact p : orderly p -> forall f ts, runz p f -> f_trees f = Some ts -> same_fam ts (proper (family p)).
  Proof.
    assert (Base : forall p f ts, tame p -> runz p f -> f_trees f = Some ts -> same_fam ts (proper (family p))).
    { intros p0 f ts Tm Z E t. destruct (runm_exists p0) as [g X].
      rewrite (tame_agree p0 Tm f g ts Z X E t), proper_in, (matrix_family p0 g X t). reflexivity. }
    assert (Step : forall a f, runz a f -> exists ta, f_trees f = Some ta /\ Reach f /\ NoDup ta /\ (forall t, In t ta -> ssorted t) /\ ~ In [] ta).
    { intros a f Z. pose proof (runz_reach _ _ Z) as R. destruct (C03_trees_well_formed_pf T OT f R) as (ta & E & (W & N) & N0).
      exists ta. auto. }
    assert (ND : forall a, NoDup (proper (family a))) by (intros a; apply NoDup_filter, family_ok).
    assert (Sym : forall fs gs : list (list T), same_fam fs gs -> same_fam gs fs) by (intros fs gs Q t; symmetry; apply Q).
    induction p as [|s|m|s|a IHa b IHb|a IHa b IHb|a IHa b IHb|a IHa e|a IHa e|a IHa es|a IHa es];
      intros Od f ts Z E; cbn [orderly] in Od; try (apply (Base _ f); [exact I|exact Z|exact E]); clear Base.
    - inversion Z as [| | | |h' ? ? fa fb ? Za Zb F| | | | | |]; subst. destruct Od as (Oa & Ob & Sa & Sb).
      destruct (Step _ _ Za) as (ta & Ea & Ra & Na & _ & _). destruct (Step _ _ Zb) as (tb & Eb & Rb & Nb & _ & _).
      pose proof (IHa Oa _ _ Za Ea) as Fa. pose proof (IHb Ob _ _ Zb Eb) as Fb.
      destruct (C11_union_partial_pf T OT h' fa fb ta tb Ra Rb Ea Eb) as (r & tr & Er & Et & Sp).
      rewrite F in Er. injection Er as <-. rewrite E in Et. injection Et as <-.
      assert (X : forall t, In t ts <-> In t ta \/ In t tb).
      { apply Sp; [eapply settled_ext; [| | | | | |exact Sa]; auto|eapply settled_ext; [| | | | | |exact Sb]; auto]. }
      intros t. rewrite (X t), (Fa t), (Fb t), !proper_in. cbn [family]. rewrite sets_in. split.
      + intros Q. assert (Q' : t <> [] /\ (In t (family a) \/ In t (family b))) by tauto. destruct Q' as (N & I).
        split; [exact N|]. exists t. rewrite in_app_iff. split; [exact I|]. symmetry. apply fr_id.
        destruct I as [I|I]; [exact (proj2 (family_ok a) t I)|exact (proj2 (family_ok b) t I)].
      + intros (N & s & I & ->). apply in_app_iff in I.
        rewrite fr_id in *; [tauto| |]; destruct I as [I|I]; first [exact (proj2 (family_ok a) s I)|exact (proj2 (family_ok b) s I)].
    - inversion Z as [| | | | |h' ? ? fa fb ? Za Zb F| | | | |]; subst. destruct Od as (Oa & Ob & (Sa & Sb) & Pa & Pb).
      destruct (Step _ _ Za) as (ta & Ea & Ra & Na & _ & _). destruct (Step _ _ Zb) as (tb & Eb & Rb & Nb & _ & _).
      pose proof (IHa Oa _ _ Za Ea) as Fa. pose proof (IHb Ob _ _ Zb Eb) as Fb.
      destruct (C12_intersect_partial_pf T OT h' fa fb ta tb Ra Rb Ea Eb) as (r & tr & Er & Et & Sp).
      rewrite F in Er. injection Er as <-. rewrite E in Et. injection Et as <-.
      assert (X : forall t, In t ts <-> In t ta /\ In t tb).
      { apply Sp; [eapply settled_ext; [| | | | | |exact Sa]; auto|eapply settled_ext; [| | | | | |exact Sb]; auto|eapply nps_ext; [| |exact Pa]; auto|eapply nps_ext; [| |exact Pb]; auto]. }
      intros t. rewrite (X t), (Fa t), (Fb t), !proper_in. cbn [family]. rewrite filter_In, (memb_spec t). tauto.
    - inversion Z as [| | | | | |h' ? ? fa fb ? Za Zb F| | | |]; subst. destruct Od as (Oa & Ob & (Sa & Sb) & Ka & Kb & D).
      destruct (Step _ _ Za) as (ta & Ea & Ra & Na & _ & _). destruct (Step _ _ Zb) as (tb & Eb & Rb & Nb & _ & _).
      destruct (Step _ _ Z) as (ts' & E' & _ & _ & W & N0). rewrite E in E'. injection E' as <-.
      assert (Fa : same_fam ta (family a)).
      { intros t. rewrite (IHa Oa _ _ Za Ea t). apply proper_all; exact Ka. }
      assert (Fb : same_fam tb (family b)).
      { intros t. rewrite (IHb Ob _ _ Zb Eb t). apply proper_all; exact Kb. }
      destruct (C13_product_partial_pf T OT h' fa fb ta tb Ra Rb Ea Eb) as (r & tr & Er & Et & Sp).
      rewrite F in Er. injection Er as <-. rewrite E in Et. injection Et as <-.
      destruct Sp as (_ & Sp).
      { eapply settled_ext; [| | | | | |exact Sa]; auto; apply family_ok. }
      { eapply settled_ext; [| | | | | |exact Sb]; auto; apply family_ok. }
      specialize (Sp ltac:(destruct D as [D|[D|D]];
        [left; intros u v x Iu Iv; apply (D u v x); [apply Fa; exact Iu|apply Fb; exact Iv]
        |right; left; intros u v Iu Iv; apply D; apply Fa; assumption
        |right; right; intros u v Iu Iv; apply D; apply Fb; assumption])).
      intros t. rewrite proper_in. cbn [family]. rewrite sets_in. split.
      + intros It. split; [intros ->; contradiction|].
        destruct (proj1 (Sp t)) as (u & v & Iu & Iv & U); [exists t; split; [exact It|intros x; tauto]|].
        exists (u ++ v). split.
        * apply in_map_iff. exists (u, v). split; [reflexivity|]. apply in_prod; [apply Fa; exact Iu|apply Fb; exact Iv].
        * apply ssorted_ext; [apply W; exact It|apply filter_repeats_ssorted|].
          intros x. rewrite filter_repeats_in, in_app_iff. apply U.
      + intros (N & s & I & ->). apply in_map_iff in I. destruct I as ([u v] & <- & I). apply in_prod_iff in I. cbn [fst snd] in *.
        destruct (proj2 (Sp (filter_repeats (u ++ v)))) as (t & It & S).
        { exists u, v. split; [apply Fa, I|]. split; [apply Fb, I|]. intros x. rewrite filter_repeats_in, in_app_iff. tauto. }
        replace (filter_repeats (u ++ v)) with t; [exact It|].
        apply ssorted_ext; [apply W; exact It|apply filter_repeats_ssorted|exact S].
    - inversion Z as [| | | | | | |h' ? fa ? ? Za F| | |]; subst.
      destruct (Step _ _ Za) as (ta & Ea & Ra & _). pose proof (IHa Od _ _ Za Ea) as Fa.
      destruct (C07_subset_exact_pf T OT h' fa e ta Ra Ea) as (r & tr & Er & Et & Sp).
      rewrite F in Er. injection Er as <-. rewrite E in Et. injection Et as <-.
      intros t. rewrite Sp, (Fa t), !proper_in. cbn [family]. rewrite filter_In, memb_spec. tauto.
    - inversion Z as [| | | | | | | |h' ? fa ? ? Za F| |]; subst.
      destruct (Step _ _ Za) as (ta & Ea & Ra & _). pose proof (IHa Od _ _ Za Ea) as Fa.
      destruct (C08_subset_not_exact_pf T OT h' fa e ta Ra Ea) as (r & tr & Er & Et & Sp).
      rewrite F in Er. injection Er as <-. rewrite E in Et. injection Et as <-.
      intros t. rewrite Sp, (Fa t), !proper_in. cbn [family]. rewrite filter_In, negb_memb. tauto.
    - inversion Z as [| | | | | | | | |h' ? fa ? ? Za F|]; subst.
      destruct (Step _ _ Za) as (ta & Ea & Ra & _). pose proof (IHa Od _ _ Za Ea) as Fa.
      destruct (C09_subset_all_exact_pf T OT h' fa es ta Ra Ea) as (r & tr & Er & Et & Sp).
      rewrite F in Er. injection Er as <-. rewrite E in Et. injection Et as <-.
      intros t. rewrite Sp, (Fa t), !proper_in. cbn [family]. rewrite filter_In, forallb_forall.
      assert (Q : (forall e, In e es -> In e t) <-> (forall e, In e es -> memb e t = true)).
      { split; intros B e I; specialize (B e I); apply memb_spec; exact B. }
      rewrite Q. tauto.
    - inversion Z as [| | | | | | | | | |h' ? fa ? ? Za F]; subst. destruct Od as (Oa & C).
      destruct (Step _ _ Za) as (ta & Ea & Ra & _). pose proof (IHa Oa _ _ Za Ea) as Fa.
      destruct (C10_subset_none_partial_pf T OT h' fa es ta Ra Ea) as (r & tr & Er & Et & _ & _ & Sp).
      rewrite F in Er. injection Er as <-. rewrite E in Et. injection Et as <-.
      assert (K : ((forall e, In e es -> exists t, In t ta /\ In e t) /\
                   (no_proper_subset ta ta \/ (exists e, forall x, In x es -> x = e))) \/
                  (forall e t, In e es -> In t ta -> ~ In e t)).
      { destruct C as [(A & B)|C].
        - left. split.
          + intros e Ie. destruct (A e Ie) as (t & It & Et). exists t. split; [|exact Et]. apply Fa, proper_in.
            split; [intros ->; contradiction|exact It].
          + destruct B as [B|B]; [left|right; exact B]. eapply nps_ext; [| |exact B]; auto.
        - right. intros e t Ie It. apply C; [exact Ie|]. apply Fa, proper_in in It. apply It. }
      intros t. rewrite (Sp K t), (Fa t), !proper_in. cbn [family]. rewrite filter_In, forallb_forall.
      assert (Q : (forall e, In e es -> ~ In e t) <-> (forall e, In e es -> negb (memb e t) = true)).
      { split; intros B e I; specialize (B e I); apply negb_memb; exact B. }
      rewrite Q. tauto.
  Qed.

  Lemma lists_same (ts ts' : list (list T)) P P' : (forall t, P t <-> P' t) -> lists ts P -> lists ts' P' -> same_fam ts ts'.
  Proof. intros E (_ & A) (_ & B) t. rewrite (A t), (B t), (E t). reflexivity. Qed.
  Lemma held_wf p ts : held p ts -> NoDup ts.
  Proof. destruct 1; match goal with L : lists _ _ |- _ => apply L end. Qed.
  Lemma resort_same ta tb ta' tb' ea ea' : NoDup ta -> NoDup tb -> NoDup ta' -> NoDup tb' ->
    same_fam ta ta' -> same_fam tb tb' -> resort_by ta tb ea -> resort_by ta' tb' ea' -> same_fam ea ea'.
  Proof.
    intros A B A' B' F G R R'. pose proof (resort_by_ext ta tb ta' tb' ea A B A' B' F G R) as R2.
    intros t. exact (resorted_fun _ _ _ _ R2 _ _ (fun t => iff_refl _) R' t).
  Qed.
  (** [held] has at most one result *)
  Lemma held_fun p : forall ts ts', held p ts -> held p ts' -> same_fam ts ts'.
  Proof.
    induction p as [|s|m|s|a IHa b IHb|a IHa b IHb|a IHa b IHb|a IHa e|a IHa e|a IHa es|a IHa es]; intros ts ts' X Y.
    - inversion X as [? L| | | | | | | | | | |]; inversion Y as [? L'| | | | | | | | | | |]; subst.
      eapply lists_same; [|exact L|exact L']. intros t; tauto.
    - inversion X as [|? ? L| | | | | | | | | |]; inversion Y as [|? ? L'| | | | | | | | | |]; subst.
      eapply lists_same; [|exact L|exact L']. intros t; tauto.
    - inversion X as [| |? ? L| | | | | | | | |]; inversion Y as [| |? ? L'| | | | | | | | |]; subst.
      eapply lists_same; [|exact L|exact L']. intros t; tauto.
    - inversion X as [| | |? ? L| | | | | | | |]; inversion Y as [| | |? ? L'| | | | | | | |]; subst.
      eapply lists_same; [|exact L|exact L']. intros t; tauto.
    - inversion X as [| | | |? ? ta tb ea eb ? Ha Hb Ra Rb L| | | | | | |]; inversion Y as [| | | |? ? ta' tb' ea' eb' ? Ha' Hb' Ra' Rb' L'| | | | | | |]; subst.
      pose proof (IHa _ _ Ha Ha') as Fa. pose proof (IHb _ _ Hb Hb') as Fb.
      pose proof (held_wf _ _ Ha). pose proof (held_wf _ _ Hb). pose proof (held_wf _ _ Ha'). pose proof (held_wf _ _ Hb').
      assert (Ea : same_fam ea ea') by (eapply (resort_same ta tb ta' tb'); eauto).
      assert (Eb : same_fam eb eb') by (eapply (resort_same tb ta tb' ta'); eauto).
      eapply lists_same; [|exact L|exact L']. intros t. cbv beta. rewrite (Ea t), (Eb t). reflexivity.
    - inversion X as [| | | | |? ? ta tb ea eb ? Ha Hb Ra Rb L| | | | | |]; inversion Y as [| | | | |? ? ta' tb' ea' eb' ? Ha' Hb' Ra' Rb' L'| | | | | |]; subst.
      pose proof (IHa _ _ Ha Ha') as Fa. pose proof (IHb _ _ Hb Hb') as Fb.
      pose proof (held_wf _ _ Ha). pose proof (held_wf _ _ Hb). pose proof (held_wf _ _ Ha'). pose proof (held_wf _ _ Hb').
      assert (Ea : same_fam ea ea') by (eapply (resort_same ta tb ta' tb'); eauto).
      assert (Eb : same_fam eb eb') by (eapply (resort_same tb ta tb' ta'); eauto).
      eapply lists_same; [|exact L|exact L']. intros t. apply met_cext; auto.
      intros z. rewrite (count_same ta ta' z), (count_same tb tb' z); auto.
    - inversion X as [| | | | | |? ? ta tb ea eb ? Ha Hb Ra Rb L| | | | |]; inversion Y as [| | | | | |? ? ta' tb' ea' eb' ? Ha' Hb' Ra' Rb' L'| | | | |]; subst.
      pose proof (IHa _ _ Ha Ha') as Fa. pose proof (IHb _ _ Hb Hb') as Fb.
      pose proof (held_wf _ _ Ha). pose proof (held_wf _ _ Hb). pose proof (held_wf _ _ Ha'). pose proof (held_wf _ _ Hb').
      assert (Ea : same_fam ea ea') by (eapply (resort_same ta tb ta' tb'); eauto).
      assert (Eb : same_fam eb eb') by (eapply (resort_same tb ta tb' ta'); eauto).
      assert (Ec : forall z, count ta z + count tb z = count ta' z + count tb' z).
      { intros z. rewrite (count_same ta ta' z), (count_same tb tb' z); auto. }
      eapply lists_same; [|exact L|exact L']. intros t. cbv zeta.
      split; (intros (S & u & v & U & V & W & C); split; [exact S|]; exists u, v; split; [apply Ea, U|]; split; [apply Eb, V|]; split; [exact W|]).
      + intros c K. eapply (agree_after_ext (fun z => count ta z + count tb z)); [exact Ec|]. apply C.
        eapply same_rest_ext; [| | |exact K]; [intros z; symmetry; apply Ec|intros z; symmetry; apply Ea|intros z; symmetry; apply Eb].
      + intros c K. eapply (agree_after_ext (fun z => count ta z + count tb z)); [exact Ec|]. apply C.
        eapply same_rest_ext; [| | |exact K]; [exact Ec|exact Ea|exact Eb].
    - inversion X as [| | | | | | |? ? ta ? Ha L| | | |]; inversion Y as [| | | | | | |? ? ta' ? Ha' L'| | | |]; subst.
      eapply lists_same; [|exact L|exact L']. intros t. cbv beta. rewrite (IHa _ _ Ha Ha' t). reflexivity.
    - inversion X as [| | | | | | | |? ? ta ? Ha L| | |]; inversion Y as [| | | | | | | |? ? ta' ? Ha' L'| | |]; subst.
      eapply lists_same; [|exact L|exact L']. intros t. cbv beta. rewrite (IHa _ _ Ha Ha' t). reflexivity.
    - inversion X as [| | | | | | | | |? ? ta ? Ha L| |]; inversion Y as [| | | | | | | | |? ? ta' ? Ha' L'| |]; subst.
      eapply lists_same; [|exact L|exact L']. intros t. cbv beta. rewrite (IHa _ _ Ha Ha' t). reflexivity.
    - assert (Cross : forall ta ta', held a ta -> held a ta' ->
        (es = [] \/ exists e, In e es /\ forall t, In t ta -> ~ In e t) -> es <> [] ->
        (forall e, In e es -> exists t, In t ta' /\ In e t) -> False).
      { intros ta ta' Ha Ha' [->|(e & Ie & N)] Ne A; [congruence|]. destruct (A e Ie) as (t & It & Et).
        apply (IHa _ _ Ha' Ha) in It. exact (N t It Et). }
      inversion X as [| | | | | | | | | |? ? ta ? Ha O L|? e es0 ta fs ? Ha A M L]; inversion Y as [| | | | | | | | | |? ? ta' ? Ha' O' L'|? e' es0' ta' fs' ? Ha' A' M' L']; subst.
      + eapply lists_same; [|exact L|exact L']. intros t. apply (IHa _ _ Ha Ha' t).
      + exfalso. apply (Cross ta ta' Ha Ha' O); [discriminate|exact A'].
      + exfalso. apply (Cross ta' ta Ha' Ha O'); [discriminate|exact A].
      + match goal with Q : _ :: _ = _ :: _ |- _ => injection Q as -> -> end.
        pose proof (IHa _ _ Ha Ha') as Fa.
        eapply lists_same; [|exact L|exact L']. intros t.
        eapply (met_all_fun (count ta) (count ta') ta ta' es0); [intros z; apply count_same; eauto using held_wf|exact Fa|apply without_ext, Fa|exact M|exact M'].
  Qed.
  (** every run holds what [held] says *)
  Lemma runz_held p : forall f ts, runz p f -> f_trees f = Some ts -> held p ts.
  Proof.
    assert (Step : forall a f, runz a f -> exists ta, f_trees f = Some ta /\ Reach f /\ well_listed ta /\ ~ In [] ta).
    { intros a f Z. pose proof (runz_reach _ _ Z) as R. destruct (C03_trees_well_formed_pf T OT f R) as (ta & E & W & N0).
      exists ta. auto. }
    assert (Ls : forall a f ts P, runz a f -> f_trees f = Some ts -> (forall t, t <> [] -> (In t ts <-> P t)) -> lists ts P).
    { intros a f ts P Z E Q. destruct (Step a f Z) as (ta & Ea & _ & W & N). rewrite E in Ea. injection Ea as <-.
      split; [exact W|]. intros t. split.
      - intros It. assert (t <> []) by (intros ->; contradiction). split; [assumption|]. apply Q; assumption.
      - intros (Nt & Pt). apply Q; assumption. }
    induction p as [|s|m|s|a IHa b IHb|a IHa b IHb|a IHa b IHb|a IHa e|a IHa e|a IHa es|a IHa es]; intros f ts Z E.
    - pose proof Z as Z0. inversion Z; subst. apply held_empty. eapply (Ls _ _ _ _ Z0 E). intros t _. cbn in E. injection E as <-. reflexivity.
    - pose proof Z as Z0. inversion Z as [|h' ? ? F| | | | | | | | |]; subst. apply held_unit. eapply (Ls _ _ _ _ Z0 E). intros t Nt.
      destruct (C02_unit_exact_pf T OT h' s) as (r & tr & Er & Et & A & B). rewrite F in Er. injection Er as <-.
      rewrite E in Et. injection Et as <-. destruct s as [|x s].
      + rewrite (A eq_refl). split; [intros []|]. intros ->. exfalso; apply Nt; reflexivity.
      + destruct B as (t0 & -> & S0 & Q); [discriminate|]. assert (t0 = filter_repeats (x :: s)) as ->.
        { apply ssorted_ext; [exact S0|apply filter_repeats_ssorted|]. intros z. rewrite filter_repeats_in. apply Q. }
        cbn [In]. split; [intros [<-|[]]; reflexivity|intros ->; left; reflexivity].
    - pose proof Z as Z0. inversion Z as [| |h' ? ? F| | | | | | | |]; subst. apply held_many. eapply (Ls _ _ _ _ Z0 E). intros t Nt.
      destruct (C01_many_exact_pf T OT h' m) as (r & tr & Er & Et & (W & _) & A & B). rewrite F in Er. injection Er as <-.
      rewrite E in Et. injection Et as <-. split.
      + intros It. destruct (B t It) as (_ & row & Ir & Q). exists row. split; [exact Ir|].
        apply ssorted_ext; [apply W, It|apply filter_repeats_ssorted|]. intros z. rewrite filter_repeats_in. apply Q.
      + intros (s & Is & ->). destruct (A s Is) as (t' & It' & Q); [intros ->; apply Nt; reflexivity|].
        replace (filter_repeats s) with t'; [exact It'|].
        apply ssorted_ext; [apply W, It'|apply filter_repeats_ssorted|]. intros z. rewrite filter_repeats_in. apply Q.
    - pose proof Z as Z0. inversion Z as [| | |h' ? ? F| | | | | | |]; subst. apply held_unique. eapply (Ls _ _ _ _ Z0 E). intros t Nt.
      destruct (C02_unique_exact_pf T OT h' s) as (r & tr & Er & Et & _ & A). rewrite F in Er. injection Er as <-.
      rewrite E in Et. injection Et as <-. apply A.
    - pose proof Z as Z0. inversion Z as [| | | |h' ? ? fa fb ? Za Zb F| | | | | |]; subst.
      destruct (Step _ _ Za) as (ta & Ea & Ra & _). destruct (Step _ _ Zb) as (tb & Eb & Rb & _).
      destruct (C11_union_exact_partial_pf T OT h' fa fb ta tb Ra Rb Ea Eb) as (r & tr & ea & eb & Er & Et & (D1 & _) & (D2 & _) & S).
      rewrite F in Er. injection Er as <-. rewrite E in Et. injection Et as <-.
      apply (held_union a b ta tb ea eb); eauto.
    - pose proof Z as Z0. inversion Z as [| | | | |h' ? ? fa fb ? Za Zb F| | | | |]; subst.
      destruct (Step _ _ Za) as (ta & Ea & Ra & _). destruct (Step _ _ Zb) as (tb & Eb & Rb & _).
      destruct (C12_intersect_exact_partial_pf T OT h' fa fb ta tb Ra Rb Ea Eb) as (r & tr & ea & eb & Er & Et & (D1 & _) & (D2 & _) & S).
      rewrite F in Er. injection Er as <-. rewrite E in Et. injection Et as <-.
      apply (held_intersect a b ta tb ea eb); eauto.
    - pose proof Z as Z0. inversion Z as [| | | | | |h' ? ? fa fb ? Za Zb F| | | |]; subst.
      destruct (Step _ _ Za) as (ta & Ea & Ra & _). destruct (Step _ _ Zb) as (tb & Eb & Rb & _).
      destruct (Step _ _ Z0) as (ts' & E' & _ & (W & _) & _). rewrite E in E'. injection E' as <-.
      destruct (C13_product_exact_partial_pf T OT h' fa fb ta tb Ra Rb Ea Eb) as (r & tr & ea & eb & Er & Et & (D1 & _) & (D2 & _) & S).
      rewrite F in Er. injection Er as <-. rewrite E in Et. injection Et as <-. cbv zeta in S.
      apply (held_product a b ta tb ea eb); eauto. eapply (Ls _ _ _ _ Z0 E). intros t _. cbv zeta. rewrite <- (S t). split.
      + intros It. split; [apply W, It|]. exists t. split; [exact It|]. intros x; tauto.
      + intros (So & t' & It' & Q). replace t with t'; [exact It'|]. apply ssorted_ext; [apply W, It'|exact So|exact Q].
    - pose proof Z as Z0. inversion Z as [| | | | | | |h' ? fa ? ? Za F| | |]; subst.
      destruct (Step _ _ Za) as (ta & Ea & Ra & _).
      destruct (C07_subset_exact_pf T OT h' fa e ta Ra Ea) as (r & tr & Er & Et & S).
      rewrite F in Er. injection Er as <-. rewrite E in Et. injection Et as <-.
      apply (held_subset a e ta); eauto.
    - pose proof Z as Z0. inversion Z as [| | | | | | | |h' ? fa ? ? Za F| |]; subst.
      destruct (Step _ _ Za) as (ta & Ea & Ra & _).
      destruct (C08_subset_not_exact_pf T OT h' fa e ta Ra Ea) as (r & tr & Er & Et & S).
      rewrite F in Er. injection Er as <-. rewrite E in Et. injection Et as <-.
      apply (held_subset_not a e ta); eauto.
    - pose proof Z as Z0. inversion Z as [| | | | | | | | |h' ? fa ? ? Za F|]; subst.
      destruct (Step _ _ Za) as (ta & Ea & Ra & _).
      destruct (C09_subset_all_exact_pf T OT h' fa es ta Ra Ea) as (r & tr & Er & Et & S).
      rewrite F in Er. injection Er as <-. rewrite E in Et. injection Et as <-.
      apply (held_subset_all a es ta); eauto.
    - pose proof Z as Z0. inversion Z as [| | | | | | | | | |h' ? fa ? ? Za F]; subst.
      destruct (Step _ _ Za) as (ta & Ea & Ra & _).
      destruct (C10_subset_none_exact_partial_pf T OT h' fa es ta Ra Ea) as (r & tr & Er & Et & S & S').
      rewrite F in Er. injection Er as <-. rewrite E in Et. injection Et as <-.
      destruct (forallb (fun e => existsb (memb e) ta) es) eqn:Q.
      + assert (A : forall e, In e es -> exists t, In t ta /\ In e t).
        { intros e Ie. rewrite forallb_forall in Q. specialize (Q e Ie). apply existsb_exists in Q.
          destruct Q as (t & It & M). exists t. split; [exact It|]. apply memb_spec, M. }
        destruct es as [|e es].
        * subst ts. apply (held_subset_none_off a [] ta); [eauto|left; reflexivity|]. eapply (Ls _ _ _ _ Z0 E). intros t _. reflexivity.
        * apply (held_subset_none a e es ta ts); [eauto|exact A|apply S, A|]. eapply (Ls _ _ _ _ Z0 E). intros t _. reflexivity.
      + assert (X : exists e, In e es /\ forall t, In t ta -> ~ In e t).
        { clear - Q. induction es as [|e es IH]; [discriminate|]. cbn in Q. apply andb_false_iff in Q. destruct Q as [Q|Q].
          - exists e. split; [left; reflexivity|]. intros t It J. apply not_true_iff_false in Q. apply Q, existsb_exists.
            exists t. split; [exact It|apply memb_spec, J].
          - destruct (IH Q) as (e' & I' & N). exists e'. split; [right|]; auto. }
        rewrite (S' X) in *. apply (held_subset_none_off a es ta); [eauto|right; exact X|]. eapply (Ls _ _ _ _ Z0 E). intros t _. reflexivity.
  Qed.
End Den.

Section Roundabout.
  Context {T : Type} `{OT : Ord T}.
  Implicit Types f g : mforest T.
  Definition rb f : Prop := exists t, f = MMany [t].
  Lemma mts_length p f : runm p f -> length (mts f) = length (family p).
  Proof.
    intros X. apply Nat.le_antisymm; apply NoDup_incl_length.
    - destruct (reach_minv _ (runm_reach _ _ X)) as (_ & N & _). apply ssorted_NoDup; exact N.
    - intros t. apply matrix_family, X.
    - apply family_ok.
    - intros t. apply matrix_family, X.
  Qed.
  Lemma rb_len f : rb f -> length (mts f) = 1.
  Proof. intros (t & ->). reflexivity. Qed.
  Lemma rb_many m : rb (m_many m) <-> length (mts (m_many m)) = 1 /\ 2 <= length m.
  Proof.
    destruct m as [|a [|b m]]; cbn [m_many mts length].
    - split; [intros (t & E); discriminate|lia].
    - split; [intros (t & E); discriminate|lia].
    - set (l := hset _). clearbody l. cbn [mts]. split.
      + intros (t & E). injection E as ->. simpl. lia.
      + intros (E & _). destruct l as [|t [|]]; try discriminate. exists t. reflexivity.
  Qed.
  Lemma mts_nil f : minv f -> mts f = [] -> f = MEmpty.
  Proof. intros (_ & _ & N) E. destruct f as [|s|m]; try discriminate; auto. simpl in E. destruct (N m eq_refl E). Qed.
  Lemma mts_one f t : mts f = [t] -> f = MUnit t \/ f = MMany [t].
  Proof. destruct f as [|s|m]; simpl; [discriminate| |]; intros E; [injection E as ->|rewrite E]; auto. Qed.
  Lemma ho_iter_one {A} (h : hash_order) s (x : A) : ho_iter h s [x] = [x].
  Proof. apply Permutation_length_1_inv. symmetry. apply ho_perm. Qed.
  Lemma nodup_two (l : list (list T)) : NoDup l -> 2 <= length l -> exists u v, u <> v /\ In u l /\ In v l.
  Proof.
    intros N L. destruct l as [|u [|v l]]; simpl in L; try lia. inversion N as [|? ? X]; subst. exists u, v.
    split; [intros ->; apply X; left; reflexivity|]. simpl. auto.
  Qed.
  Lemma one_all (l : list (list T)) t u : length l = 1 -> In t l -> In u l -> t = u.
  Proof. destruct l as [|x [|]]; try discriminate. intros _ [<-|[]] [<-|[]]. reflexivity. Qed.
  Lemma flat_map_len {A B} (g : A -> list B) n l : (forall x, In x l -> length (g x) = n) -> length (flat_map g l) = length l * n.
  Proof.
    induction l as [|x l IH]; intros Hl; simpl; auto. rewrite app_length, IH, Hl; auto; [left; reflexivity|].
    intros y Hy. apply Hl. right; exact Hy.
  Qed.
  Lemma one_filter h q f m : minv f -> f = MMany m -> ~ rb (m_many (filter q (ho_iter h site_m1 m))).
  Proof.
    intros V -> R. apply rb_many in R. destruct R as (E & L).
    destruct V as (St & Sm & _). cbn [mts] in *.
    assert (N : NoDup (ho_iter h site_m1 m)).
    { eapply Permutation_NoDup; [symmetry; apply ho_perm|]. apply ssorted_NoDup; exact Sm. }
    destruct (nodup_two (filter q (ho_iter h site_m1 m))) as (u & v & Ne & Iu & Iv); [apply NoDup_filter; exact N|exact L|].
    assert (G : forall w, In w (filter q (ho_iter h site_m1 m)) -> In w (mts (m_many (filter q (ho_iter h site_m1 m))))).
    { intros w Iw. apply m_many_in. exists w. split; auto. symmetry. apply fr_id. apply St.
      apply filter_In in Iw. destruct Iw as (Iw & _). eapply Permutation_in; [apply ho_perm|exact Iw]. }
    apply Ne. eapply one_all; [exact E|apply G; auto|apply G; auto].
  Qed.
  Lemma eqb_roundabout_eq f g : minv f -> minv g ->
    (m_eqb f g = true <-> (forall t, In t (mts f) <-> In t (mts g)) /\ (rb f <-> rb g)).
  Proof.
    intros Vf Vg. rewrite m_eqb_eq. split; [intros ->; tauto|]. intros (S & R).
    assert (E : mts f = mts g) by (apply ssorted_ext; [apply Vf|apply Vg|exact S]).
    destruct f as [|s|m], g as [|s2|m2]; cbn [mts] in E; try congruence.
    - exfalso. destruct Vg as (_ & _ & Ng). apply (Ng m2 eq_refl). congruence.
    - subst m2. destruct R as (_ & R). destruct R as (t & R); [exists s; reflexivity|discriminate].
    - exfalso. destruct Vf as (_ & _ & Nf). apply (Nf m eq_refl). congruence.
    - subst m. destruct R as (R & _). destruct R as (t & R); [exists s2; reflexivity|discriminate].
  Qed.

  Lemma roundabout_spec p g : runm p g -> (roundabout p <-> rb g).
  Proof.
    intros X. pose proof (mts_length _ _ X) as Ln. revert Ln.
    induction X as [|s|m|s|h a b f g Ra IHa Rb IHb|h a b f g Ra IHa Rb IHb|h a b f g Ra IHa Rb IHb
                   |h a f e Ra IHa|h a f e Ra IHa|h a f es Ra IHa|h a f es Ra IHa]; intros Ln; cbn [roundabout].
    - split; [tauto|intros (t & E); discriminate].
    - split; [tauto|intros (t & E); discriminate].
    - rewrite rb_many, Ln. reflexivity.
    - unfold m_unique in *. rewrite rb_many, Ln, map_length. reflexivity.
    - specialize (IHa (mts_length _ _ Ra)). specialize (IHb (mts_length _ _ Rb)). rewrite IHa, IHb, <- Ln.
      pose proof (reach_minv _ (runm_reach _ _ Ra)) as Va. pose proof (reach_minv _ (runm_reach _ _ Rb)) as Vb.
      pose proof (proj2 (m_union_spec h f g Va Vb)) as Sp. clear Ln IHa IHb.
      split.
      + intros (L & R). assert (Sub : forall w, In w (mts f) \/ In w (mts g) -> In w (mts (m_union h f g))) by (intros w; apply Sp).
        unfold m_union in *. destruct (m_eqb f g) eqn:E.
        * apply m_eqb_eq in E. subst g. tauto.
        * destruct R as [(t & ->)|(t & ->)].
          -- destruct g as [|u|m]; [exists t; reflexivity| |].
             ++ rewrite ho_iter_one in *. apply rb_many. split; [exact L|simpl; lia].
             ++ exfalso. destruct Vb as (_ & Sm & Ng). assert (In t m) as It.
                { destruct m as [|w m]; [destruct (Ng [] eq_refl eq_refl)|].
                  assert (t = w) as -> by (eapply one_all; [exact L|apply Sub; left; left; reflexivity|apply Sub; right; left; reflexivity]).
                  left; reflexivity. }
                assert (m = [t]).
                { apply ssorted_ext; [exact Sm|repeat constructor|]. intros w. split.
                  - intros Iw. left. eapply one_all; [exact L|apply Sub; left; left; reflexivity|apply Sub; right; exact Iw].
                  - intros [<-|[]]. exact It. }
                subst m. assert (m_eqb (MMany [t]) (MMany [t]) = true) by (apply m_eqb_eq; reflexivity). congruence.
          -- destruct f as [|u|m]; [exists t; reflexivity| |].
             ++ rewrite ho_iter_one in *. apply rb_many. split; [exact L|simpl; lia].
             ++ exfalso. destruct Va as (_ & Sm & Ng). assert (In t m) as It.
                { destruct m as [|w m]; [destruct (Ng [] eq_refl eq_refl)|].
                  assert (t = w) as -> by (eapply one_all; [exact L|apply Sub; right; left; reflexivity|apply Sub; left; left; reflexivity]).
                  left; reflexivity. }
                assert (m = [t]).
                { apply ssorted_ext; [exact Sm|repeat constructor|]. intros w. split.
                  - intros Iw. left. eapply one_all; [exact L|apply Sub; right; left; reflexivity|apply Sub; left; exact Iw].
                  - intros [<-|[]]. exact It. }
                subst m. assert (m_eqb (MMany [t]) (MMany [t]) = true) by (apply m_eqb_eq; reflexivity). congruence.
      + intros R. pose proof (rb_len _ R) as L. split; [exact L|].
        assert (Sub : forall w, In w (mts f) \/ In w (mts g) -> In w (mts (m_union h f g))) by (intros w; apply Sp).
        destruct f as [|u|m].
        * right. unfold m_union in R. destruct (m_eqb MEmpty g) eqn:E; [destruct R; discriminate|]. destruct g; [destruct R; discriminate|exact R|exact R].
        * destruct g as [|v|m].
          -- exfalso. unfold m_union in R. simpl in R. destruct R; discriminate.
          -- exfalso. assert (u = v) by (eapply one_all; [exact L|apply Sub; left; left; reflexivity|apply Sub; right; left; reflexivity]).
             subst v. unfold m_union in R. assert (E : m_eqb (MUnit u) (MUnit u) = true) by (apply m_eqb_eq; reflexivity).
             rewrite E in R. destruct R; discriminate.
          -- right. destruct Vb as (_ & Sm & Ng). exists u. f_equal. apply ssorted_ext; [exact Sm|repeat constructor|]. intros w.
             destruct m as [|w0 m]; [destruct (Ng [] eq_refl eq_refl)|].
             assert (A : forall z, In z (w0 :: m) -> u = z) by (intros z Iz; eapply one_all; [exact L|apply Sub; left; left; reflexivity|apply Sub; right; exact Iz]).
             split; [intros Iw; left; auto|intros [<-|[]]]. rewrite (A w0) by (left; reflexivity). left; reflexivity.
        * left. destruct Va as (_ & Sm & Ng). destruct m as [|w0 m]; [destruct (Ng [] eq_refl eq_refl)|].
          exists w0. f_equal. apply ssorted_ext; [exact Sm|repeat constructor|]. intros w.
          split; [|intros [<-|[]]; left; reflexivity]. intros Iw. left.
          eapply one_all; [exact L|apply Sub; left; left; reflexivity|apply Sub; left; exact Iw].
    - specialize (IHa (mts_length _ _ Ra)). specialize (IHb (mts_length _ _ Rb)). rewrite IHa, IHb, <- Ln.
      pose proof (reach_minv _ (runm_reach _ _ Ra)) as Va. pose proof (reach_minv _ (runm_reach _ _ Rb)) as Vb.
      pose proof (proj2 (m_intersect_spec h f g Va Vb)) as Sp. clear Ln IHa IHb. split.
      + intros (L & (t & ->) & (u & ->)). 
        assert (t = u).
        { destruct (mts (m_intersect h (MMany [t]) (MMany [u]))) as [|w l]; [discriminate|].
          destruct (proj1 (Sp w) ltac:(left; reflexivity)) as ([<-|[]] & [<-|[]]). reflexivity. }
        subst u. exists t. unfold m_intersect. assert (E : m_eqb (MMany [t]) (MMany [t]) = true) by (apply m_eqb_eq; reflexivity).
        rewrite E. reflexivity.
      + intros R. split; [apply rb_len; exact R|]. unfold m_intersect in *. destruct (m_eqb f g) eqn:E.
        * apply m_eqb_eq in E. subst g. auto.
        * exfalso. destruct f as [|u|m], g as [|v|m']; try (destruct R; discriminate).
          -- destruct (memb u m'); destruct R; discriminate.
          -- destruct (memb v m); destruct R; discriminate.
          -- apply rb_many in R. destruct R as (L & L2).
             assert (P : Permutation (ho_iter h site_par (set_inter m m')) (set_inter m m')) by apply ho_perm.
             destruct (nodup_two (ho_iter h site_par (set_inter m m'))) as (u & v & Ne & Iu & Iv); [|exact L2|].
             { eapply Permutation_NoDup; [symmetry; exact P|]. unfold set_inter. apply NoDup_filter, ssorted_NoDup, Va. }
             assert (G : forall w, In w (ho_iter h site_par (set_inter m m')) -> In w (mts (m_many (ho_iter h site_par (set_inter m m'))))).
             { intros w Iw. apply m_many_in. exists w. split; auto. symmetry. apply fr_id. apply (proj1 Va).
               apply (Permutation_in _ P) in Iw. unfold set_inter in Iw. apply filter_In in Iw. tauto. }
             apply Ne. eapply one_all; [exact L|apply G; auto|apply G; auto].
    - rewrite <- Ln, <- (mts_length _ _ Ra), <- (mts_length _ _ Rb). clear Ln IHa IHb.
      pose proof (reach_minv _ (runm_reach _ _ Ra)) as Va. pose proof (reach_minv _ (runm_reach _ _ Rb)) as Vb.
      unfold m_product, many_to_matrix. destruct f as [|u|m], g as [|v|m']; cbn [mts length];
        try (split; [intros (? & ?); simpl in *; lia|intros (t & E); discriminate]).
      + rewrite rb_many, map_length, (Permutation_length (ho_perm h _ site_m1 m')). lia.
      + rewrite rb_many, map_length, (Permutation_length (ho_perm h _ site_m1 m)). lia.
      + rewrite rb_many. rewrite (flat_map_len _ (length m')).
        * rewrite (Permutation_length (ho_perm h _ site_m1 m)). reflexivity.
        * intros x _. rewrite map_length, (Permutation_length (ho_perm h _ site_m2 m')). reflexivity.
    - pose proof (reach_minv _ (runm_reach _ _ Ra)) as Va. split; [tauto|]. intros R. destruct f as [|u|m]; cbn [m_subset] in R.
      + destruct R; discriminate.
      + destruct (memb e u); destruct R; discriminate.
      + destruct (one_filter h _ _ m Va eq_refl R).
    - pose proof (reach_minv _ (runm_reach _ _ Ra)) as Va. split; [tauto|]. intros R. destruct f as [|u|m]; cbn [m_subset_not] in R.
      + destruct R; discriminate.
      + destruct (negb (memb e u)); destruct R; discriminate.
      + destruct (one_filter h _ _ m Va eq_refl R).
    - pose proof (reach_minv _ (runm_reach _ _ Ra)) as Va. rewrite (IHa (mts_length _ _ Ra)). destruct es as [|e es]; [simpl; tauto|].
      split; [intros (E & _); discriminate|]. intros R. exfalso. destruct f as [|u|m]; cbn [m_subset_all] in R.
      + destruct R; discriminate.
      + destruct (forallb (fun e0 => memb e0 u) (e :: es)); destruct R; discriminate.
      + destruct (one_filter h _ _ m Va eq_refl R).
    - pose proof (reach_minv _ (runm_reach _ _ Ra)) as Va. rewrite (IHa (mts_length _ _ Ra)). destruct es as [|e es]; [simpl; tauto|].
      split; [intros (E & _); discriminate|]. intros R. exfalso. destruct f as [|u|m]; cbn [m_subset_none] in R.
      + destruct R; discriminate.
      + destruct (forallb (fun e0 => negb (memb e0 u)) (e :: es)); destruct R; discriminate.
      + destruct (one_filter h _ _ m Va eq_refl R).
  Qed.
End Roundabout.

(** C29, for every two programs: [==] tells two forests apart exactly if they hold different trees,
    or just one of them came to its single tree in a roundabout way. *)
Lemma C29_equality_exact_partial_pf : forall (T : Type) (O : Ord T) (p q : fexpr T) f g, runm p f -> runm q g ->
  (m_eqb f g = true <->
   (forall t, In t (family p) <-> In t (family q)) /\ (roundabout p <-> roundabout q)).
Proof.
  intros T O p q f g X Y. rewrite (roundabout_spec _ _ X), (roundabout_spec _ _ Y).
  rewrite (eqb_roundabout_eq f g (reach_minv _ (runm_reach _ _ X)) (reach_minv _ (runm_reach _ _ Y))).
  apply and_iff_compat_r. split; intros E t; specialize (E t); rewrite ?(matrix_family _ _ X), ?(matrix_family _ _ Y) in *; exact E.
Qed.
(** a roundabout program, and one that straightens it out *)
Example C29_exact_example :
  let p := EUnion (EMany [[2];[2]]) (EUnit [2]) in
  roundabout p /\ ~ roundabout (EIntersect p (EUnit [2])) /\ ~ roundabout (ESubset p 2) /\
  family p = [[2]] /\ family (EIntersect p (EUnit [2])) = [[2]].
Proof. cbn. repeat split; auto; try lia; intuition. Qed.

(** C30, the matrix half, for every program: [trees] lists exactly the family the program stands for. *)
Lemma C30_matrix_exact_pf : forall (T : Type) (O : Ord T) (p : fexpr T),
  (exists g, runm p g) /\
  forall (h : hash_order) g, runm p g -> NoDup (m_trees h g) /\ forall t, In t (m_trees h g) <-> In t (family p).
Proof.
  intros T O p. split; [apply runm_exists|]. intros h g X. split.
  - eapply Permutation_NoDup; [symmetry; apply m_trees_perm|]. destruct (reach_minv _ (runm_reach _ _ X)) as (_ & N & _). apply ssorted_NoDup; exact N.
  - intros t. rewrite m_trees_in. apply matrix_family; exact X.
Qed.
(** C30, the zdd2 half: every program whose operands are settled (and the further conditions of [orderly])
    gives the family it stands for, without the empty set; so there the two agree. *)
Lemma C30_agreement_settled_partial_pf : forall (T : Type) (O : Ord T) (p : fexpr T), orderly p ->
  exists f ts, runz p f /\ f_trees f = Some ts /\
  forall f' ts', runz p f' -> f_trees f' = Some ts' ->
    (forall t, In t ts' <-> t <> [] /\ In t (family p)) /\
    forall (h : hash_order) g, runm p g -> forall t, In t ts' <-> t <> [] /\ In t (m_trees h g).
Proof.
  intros T O p Od. destruct (runz_exists p) as [f Z].
  destruct (C03_trees_well_formed_pf T O f (runz_reach _ _ Z)) as (ts & E & _).
  exists f, ts. split; [exact Z|]. split; [exact E|]. intros f' ts' Z' E'.
  assert (Q : forall t, In t ts' <-> t <> [] /\ In t (family p)).
  { intros t. rewrite (orderly_exact p Od f' ts' Z' E' t). apply proper_in. }
  split; [exact Q|]. intros h g X t. rewrite (Q t), (proj2 (proj2 (C30_matrix_exact_pf T O p) h g X) t). reflexivity.
Qed.

(** C30, the zdd2 half, for every program, right or wrong: the trees held are what [held] says, which is
    one family. *)
Lemma C30_zdd2_exact_partial_pf : forall (T : Type) (O : Ord T) (p : fexpr T),
  (exists f ts, runz p f /\ f_trees f = Some ts /\ held p ts) /\
  (forall f ts, runz p f -> f_trees f = Some ts -> held p ts) /\
  (forall f ts ts', runz p f -> f_trees f = Some ts -> held p ts' -> forall t, In t ts <-> In t ts').
Proof.
  intros T O p. split; [|split].
  - destruct (runz_exists p) as [f Z]. destruct (C03_trees_well_formed_pf T O f (runz_reach _ _ Z)) as (ts & E & _).
    exists f, ts. split; [exact Z|]. split; [exact E|]. eapply runz_held; eauto.
  - intros f ts. apply runz_held.
  - intros f ts ts' Z E Hd. eapply held_fun; [eapply runz_held; eauto|exact Hd].
Qed.

(** a program the zdd2 forests get wrong: they hold {2} where it stands for {1} *)
Example C30_zdd2_example :
  let p := EUnion (EMany [[1];[1;2]]) (EMany [[2;3];[2;4];[2;5]]) in
  (exists f, runz p f /\ f_trees f = Some [[1;2];[2;3];[2;4];[2;5];[2]]) /\
  held p [[1;2];[2;3];[2;4];[2;5];[2]] /\ ~ In [2] (family p) /\ In [1] (family p).
Proof.
  cbn zeta.
  assert (X : exists f, runz (EUnion (EMany [[1];[1;2]]) (EMany [[2;3];[2;4];[2;5]])) f /\ f_trees f = Some [[1;2];[2;3];[2;4];[2;5];[2]]).
  { eexists. split; [|].
    - eapply (Z_union ho_id); [eapply (Z_many ho_id); vm_compute; reflexivity|eapply (Z_many ho_id); vm_compute; reflexivity|vm_compute; reflexivity].
    - vm_compute. reflexivity. }
  split; [exact X|]. destruct X as (f & Z & E). split; [exact (runz_held _ f _ Z E)|]. vm_compute. intuition discriminate.
Qed.

(** [orderly] is weaker than [tame]: no common items at binary operations, at most one distinct element in
    a [subset_none], no empty set at a product. *)
Lemma many_same {T : Type} {OT : Ord T} (ts : list (list T)) : NoDup ts -> (forall t, In t ts -> ssorted t) -> ~ In [] ts ->
  exists f tf, Reach f /\ f_trees f = Some tf /\ NoDup tf /\ same_fam tf ts.
Proof.
  intros N S K. destruct (C01_many_exact_pf T OT ho_id ts) as (f & tf & F & E & (W & Nf) & A & B).
  exists f, tf. split; [exact (R_many ho_id ts f F)|]. split; [exact E|]. split; [exact Nf|]. intros t. split.
  - intros I. destruct (B t I) as (_ & row & Ir & Q). replace t with row; [exact Ir|].
    apply ssorted_ext; [apply S; exact Ir|apply W; exact I|]. intros x. symmetry. apply Q.
  - intros I. destruct (A t I) as (t' & It' & Q); [intros ->; contradiction|]. replace t with t'; [exact It'|].
    apply ssorted_ext; [apply W; exact It'|apply S; exact I|exact Q].
Qed.
Lemma kept_settled' {T : Type} {OT : Ord T} (ts us : list (list T)) :
  NoDup ts -> (forall t, In t ts -> ssorted t) -> ~ In [] ts ->
  NoDup us -> (forall t, In t us -> ssorted t) -> ~ In [] us -> order_kept ts us -> settled ts us.
Proof.
  intros N S K N' S' K' O. destruct (many_same ts N S K) as (f & tf & R & E & Nf & F).
  destruct (many_same us N' S' K') as (g & tg & R' & E' & Ng & G).
  eapply settled_ext; [| | | |exact F|exact G|]; auto.
  apply (C11_order_kept_partial_pf T OT f g tf tg R R' E E').
  assert (C : forall z, count tf z = count ts z) by (intros z; apply count_same; auto).
  assert (C' : forall z, count tg z = count us z) by (intros z; apply count_same; auto).
  intros t x y It Ix Iy B. apply F in It. destruct (O t x y It Ix Iy) as [Q|Q].
  - eapply before_ext; [|exact B]. exact C.
  - left. eapply before_ext; [|exact Q]. intros z. cbn. rewrite C, C'. reflexivity.
  - right. intros t' It'. apply Q, F, It'.
Qed.
Lemma proper_wf {T : Type} {OT : Ord T} (p : fexpr T) :
  NoDup (proper (family p)) /\ (forall t, In t (proper (family p)) -> ssorted t) /\ ~ In [] (proper (family p)).
Proof.
  destruct (family_ok p) as (A & B). split; [apply NoDup_filter; exact A|]. split.
  - intros t I. apply proper_in in I. apply B, I.
  - intros I. apply proper_in in I. destruct I as (N & _). apply N; reflexivity.
Qed.
Lemma disjoint_settled {T : Type} {OT : Ord T} (a b : fexpr T) : item_disjoint (proper (family a)) (proper (family b)) ->
  both_settled (proper (family a)) (proper (family b)).
Proof.
  intros D. destruct (proper_wf a) as (A1 & A2 & A3), (proper_wf b) as (B1 & B2 & B3).
  assert (OS : forall us vs : list (list T), item_disjoint us vs -> order_kept us vs).
  { intros us vs D0 t x y It Hx Hy Bf. left.
    assert (C0 : forall z, In z t -> count vs z = 0).
    { intros z Hz. clear - D0 It Hz. unfold item_disjoint in D0. induction vs as [|v vs IH]; [reflexivity|].
      cbn [count]. destruct (memb z v) eqn:M.
      - apply memb_spec in M. exfalso. eapply (D0 t v z); auto. left; reflexivity.
      - rewrite IH; [reflexivity|]. intros a b w A B. eapply D0; [exact A|right; exact B]. }
    unfold before in *. rewrite (C0 x Hx), (C0 y Hy).
    destruct Bf as [Bf|[Bf L]]; [left; lia|right; split; [lia|exact L]]. }
  split; [apply kept_settled'; auto|]. apply kept_settled'; auto. apply OS. intros u v x Iu Iv Xu Xv. exact (D v u x Iv Iu Xv Xu).
Qed.
Lemma C30_tame_orderly_partial_pf : forall (T : Type) (O : Ord T) (p : fexpr T), tame p -> orderly p.
Proof.
  intros T O.
  assert (Mn : forall (p : fexpr T) t, In t (family p) -> incl t (mentions p)).
  { intros p t I. destruct (runm_exists p) as [g X]. apply (mentions_ok p g X). apply (matrix_family p g X). exact I. }
  assert (Dj : forall a b : fexpr T, (forall x, In x (mentions a) -> ~ In x (mentions b)) -> item_disjoint (family a) (family b)).
  { intros a b D u v x Iu Iv Xu Xv. exact (D x (Mn a u Iu x Xu) (Mn b v Iv x Xv)). }
  assert (Dp : forall a b : fexpr T, item_disjoint (family a) (family b) -> item_disjoint (proper (family a)) (proper (family b))).
  { intros a b D u v x Iu Iv. apply proper_in in Iu, Iv. apply (D u v x); tauto. }
  assert (NP : forall a b : fexpr T, item_disjoint (family a) (family b) -> no_proper_subset (proper (family a)) (proper (family b))).
  { intros a b D u v Iu Iv I. apply proper_in in Iu, Iv. destruct u as [|x u]; [exfalso; apply (proj1 Iu); reflexivity|].
    exfalso. apply (D (x :: u) v x); try tauto; [left; reflexivity|]. apply I. left; reflexivity. }
  assert (Sy : forall a b : fexpr T, item_disjoint (family a) (family b) -> item_disjoint (family b) (family a)).
  { intros a b D u v x Iu Iv Xu Xv. exact (D v u x Iv Iu Xv Xu). }
  induction p as [|s|m|s|a IHa b IHb|a IHa b IHb|a IHa b IHb|a IHa e|a IHa e|a IHa es|a IHa es]; cbn [tame orderly]; auto.
  - intros (A & B & D). split; [auto|]. split; [auto|]. apply disjoint_settled; auto.
  - intros (A & B & D). split; [auto|]. split; [auto|]. split; [apply disjoint_settled; auto|]. split; apply NP; auto.
  - intros (A & B & D & Na & Nb). split; [auto|]. split; [auto|].
    assert (Ka : ~ In [] (family a)).
    { destruct (runm_exists a) as [g X]. rewrite <- (matrix_family a g X). apply no_empty_ok with (p := a); auto. }
    assert (Kb : ~ In [] (family b)).
    { destruct (runm_exists b) as [g X]. rewrite <- (matrix_family b g X). apply no_empty_ok with (p := b); auto. }
    split; [|auto].
    assert (Pa : proper (family a) = family a).
    { unfold proper. clear -Ka. induction (family a) as [|t l IH]; [reflexivity|]. cbn. destruct t; [exfalso; apply Ka; left; reflexivity|].
      f_equal. apply IH. intros I. apply Ka. right; exact I. }
    assert (Pb : proper (family b) = family b).
    { unfold proper. clear -Kb. induction (family b) as [|t l IH]; [reflexivity|]. cbn. destruct t; [exfalso; apply Kb; left; reflexivity|].
      f_equal. apply IH. intros I. apply Kb. right; exact I. }
    pose proof (disjoint_settled a b (Dp _ _ (Dj _ _ D))) as Q. rewrite Pa, Pb in Q. exact Q.
  - intros (A & One). split; [auto|]. destruct es as [|e es']; [right; intros ? ? []|].
    destruct (existsb (fun t => memb e t) (family a)) eqn:Q.
    + left. apply existsb_exists in Q. destruct Q as (t & It & M). apply memb_spec in M. split.
      * intros e' Ie'. exists t. split; [exact It|]. rewrite (One e' e Ie' (or_introl eq_refl)). exact M.
      * right. exists e. intros x Ix. apply One; [exact Ix|left; reflexivity].
    + right. intros e' t Ie' It Me. rewrite (One e' e Ie' (or_introl eq_refl)) in Me.
      apply not_true_iff_false in Q. apply Q. apply existsb_exists. exists t. split; [exact It|].
      apply memb_spec. exact Me.
Qed.

(** many([[1,2]]) ∪ many([[1,3]]), then ∩ many([[1,2],[1,4]]), then × unit([1,5]): shared items everywhere *)
Example C30_settled_example :
  let p := EProduct (EIntersect (EUnion (EMany [[1;2]]) (EMany [[1;3]])) (EMany [[1;2];[1;4]])) (EUnit [1;5]) in
  orderly p /\ ~ tame p /\ family p = [[1;2;5]].
Proof.
  cbn zeta.
  set (u := EUnion (EMany [[1;2]]) (EMany [[1;3]])). set (v := EIntersect u (EMany [[1;2];[1;4]])).
  assert (K : forall (a b : fexpr nat) ta tb, proper (family a) = ta -> proper (family b) = tb ->
    order_kept ta tb -> order_kept tb ta -> both_settled (proper (family a)) (proper (family b))).
  { intros a b ta tb <- <- A B. destruct (proper_wf a) as (? & ? & ?), (proper_wf b) as (? & ? & ?). split; apply kept_settled'; auto. }
  assert (Kept : forall ta tb : list (list nat),
     forallb (fun t => forallb (fun x => forallb (fun y =>
       implb (orb (count ta y <? count ta x) (andb (count ta x =? count ta y) (x <? y)))
             (orb (count ta y + count tb y <? count ta x + count tb x)
                  (andb (count ta x + count tb x =? count ta y + count tb y) (x <? y)))) t) t) ta = true -> order_kept ta tb).
  { intros ta tb Q t x y It Ix Iy B. left. rewrite forallb_forall in Q. specialize (Q t It). rewrite forallb_forall in Q.
    specialize (Q x Ix). rewrite forallb_forall in Q. specialize (Q y Iy).
    unfold before in *. rewrite lt_nat in B. rewrite lt_nat.
    destruct (count ta y <? count ta x) eqn:E1; destruct (count ta x =? count ta y) eqn:E2; destruct (x <? y) eqn:E3;
      destruct (count ta y + count tb y <? count ta x + count tb x) eqn:E4;
      destruct (count ta x + count tb x =? count ta y + count tb y) eqn:E5;
      rewrite ?Nat.ltb_lt, ?Nat.ltb_ge, ?Nat.eqb_eq, ?Nat.eqb_neq in *; cbn in Q; try discriminate; lia. }
  assert (S1 : both_settled (proper (family (EMany [[1;2]]))) (proper (family (EMany [[1;3]])))).
  { eapply K; [vm_compute; reflexivity|vm_compute; reflexivity| |]; apply Kept; vm_compute; reflexivity. }
  assert (S2 : both_settled (proper (family u)) (proper (family (EMany [[1;2];[1;4]])))).
  { eapply K; [vm_compute; reflexivity|vm_compute; reflexivity| |]; apply Kept; vm_compute; reflexivity. }
  assert (S3 : both_settled (proper (family v)) (proper (family (EUnit [1;5])))).
  { eapply K; [vm_compute; reflexivity|vm_compute; reflexivity| |]; apply Kept; vm_compute; reflexivity. }
  assert (Fv : proper (family v) = family v) by (vm_compute; reflexivity).
  assert (F5 : proper (family (EUnit [1;5])) = family (EUnit [1;5])) by (vm_compute; reflexivity).
  rewrite Fv, F5 in S3.
  assert (Fv' : family v = [[1;2]]) by (vm_compute; reflexivity).
  split; [|split; [|vm_compute; reflexivity]].
  - split; [|split; [exact I|split; [exact S3|]]].
    + split; [split; [exact I|split; [exact I|exact S1]]|]. split; [exact I|]. split; [exact S2|].
      assert (Pu : proper (family u) = [[1;2];[1;3]]) by (vm_compute; reflexivity).
      assert (P4 : proper (family (EMany [[1;2];[1;4]])) = [[1;2];[1;4]]) by (vm_compute; reflexivity).
      rewrite Pu, P4. split.
      * intros a b [<-|[<-|[]]] [<-|[<-|[]]] Hi x; try tauto; exfalso;
        first [pose proof (Hi 2) as Q; simpl in Q; intuition discriminate|pose proof (Hi 3) as Q; simpl in Q; intuition discriminate].
      * intros a b [<-|[<-|[]]] [<-|[<-|[]]] Hi x; try tauto; exfalso;
        first [pose proof (Hi 2) as Q; simpl in Q; intuition discriminate|pose proof (Hi 4) as Q; simpl in Q; intuition discriminate].
    + rewrite Fv'. split; [intros [E|[]]; discriminate|]. split; [intros [E|[]]; discriminate|].
      right; left. intros a b [<-|[]] [<-|[]]; reflexivity.
  - intros (_ & _ & D & _). apply (D 1); cbn; auto.
Qed.
