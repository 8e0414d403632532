(** A steady flow is determined by what enters. *)
From Coq Require Import ZArith QArith Qabs List Bool Lia Lqa.
From Verif Require Import Spec_Tile Spec_Layout M_Template M_Network Spec_Network Spec_Balancer Spec_Flow P_Layout P_List P_Template P_Walk P_GridComplete P_Trace.
Import ListNotations.
Open Scope Z_scope.

Definition qsum (l : list Q) : Q := fold_right Qplus 0%Q l.
Lemma qsum_app l k : (qsum (l ++ k) == qsum l + qsum k)%Q.
Proof.
  induction l as [|x l IH]; [cbn [app]; symmetry; apply Qplus_0_l|].
  change (x + qsum (l ++ k) == x + qsum l + qsum k)%Q. rewrite IH. apply Qplus_assoc.
Qed.
Lemma qsum_nonneg l : (forall x, In x l -> 0 <= x)%Q -> (0 <= qsum l)%Q.
Proof.
  induction l as [|x l IH]; intros H; [apply Qle_refl|]. cbn [qsum fold_right]. fold (qsum l).
  pose proof (H x (or_introl eq_refl)). pose proof (IH (fun y Hy => H y (or_intror Hy))). lra.
Qed.
Lemma qsum_member l x : In x l -> (forall y, In y l -> 0 <= y)%Q -> (x <= qsum l)%Q.
Proof.
  induction l as [|y l IH]; [intros []|]. intros [<-|Hx] H; cbn [qsum fold_right]; fold (qsum l).
  - pose proof (qsum_nonneg l (fun z Hz => H z (or_intror Hz))). lra.
  - pose proof (IH Hx (fun z Hz => H z (or_intror Hz))). pose proof (H y (or_introl eq_refl)). lra.
Qed.

Lemma qsum_zero l : (forall x, In x l -> x == 0)%Q -> (qsum l == 0)%Q.
Proof.
  induction l as [|x l IH]; intros H; [reflexivity|]. change (x + qsum l == 0)%Q.
  rewrite (H x (or_introl eq_refl)), (IH (fun y Hy => H y (or_intror Hy))). reflexivity.
Qed.

(** A sum over targets that are each supplied by a source of their own. *)
Lemma transfer {X Y : Type} (R : X -> Y -> Prop) (g : Y -> Q) (h : X -> Q) (F : list Y) : forall S : list X,
  NoDup F -> (forall x, 0 <= h x)%Q -> (forall s f f', R s f -> R s f' -> f = f') ->
  (forall f, In f F -> (g f == 0)%Q \/ exists s, In s S /\ R s f /\ (g f == h s)%Q) ->
  (qsum (map g F) <= qsum (map h S))%Q.
Proof.
  induction F as [|f F IH]; intros S N Hh Rf H.
  - cbn. apply qsum_nonneg. intros x Hx. apply in_map_iff in Hx. destruct Hx as (s & <- & _). apply Hh.
  - apply NoDup_cons_iff in N. destruct N as [Nf N]. cbn [map qsum fold_right]. fold (qsum (map g F)).
    destruct (H f (or_introl eq_refl)) as [Z0|(s & Hs & Rs & E)].
    + rewrite Z0. rewrite Qplus_0_l. apply IH; auto. intros f' Hf'. apply H. right. exact Hf'.
    + apply in_split in Hs. destruct Hs as (S1 & S2 & ->).
      assert (X1 : (qsum (map g F) <= qsum (map h (S1 ++ S2)))%Q).
      { apply IH; auto. intros f' Hf'. destruct (H f' (or_intror Hf')) as [Z0|(s' & Hs' & Rs' & E')]; [left; exact Z0|right].
        exists s'. split; [|auto]. apply in_app_iff in Hs'. apply in_app_iff. destruct Hs' as [Hs'|[<-|Hs']]; auto.
        exfalso. rewrite (Rf _ _ _ Rs Rs') in Nf. contradiction. }
      rewrite map_app in *. cbn [map]. rewrite qsum_app in *. cbn [qsum fold_right]. fold (qsum (map h S2)). rewrite E. lra.
Qed.

Section Uniq.
  Variable A : area.
  Variable T : layout.
  Variable L : Z.
  Hypothesis WA : wf_area A.
  Hypothesis VL : valid_layout A T L.

  (** The splitters of the layout. *)
  Definition splitter_list : list (pos * pos) :=
    flat_map (fun p => match T p with
      | Splitter d true => match neighbour A p (anticlockwise d) with Some q => [(p, q)] | None => [] end
      | _ => [] end) (area_cells A).
  Lemma cells_inside p : In p (area_cells A) <-> inside A p.
  Proof. split; [|apply area_cells_in]. unfold area_cells. intros H. apply iterate_tiles_in in H. exact H. Qed.
  Lemma mate p d h : inside A p -> T p = Splitter d h ->
    exists q, neighbour A p (mate_side d h) = Some q /\ T q = Splitter d (negb h).
  Proof. intros Hp E. destruct VL as (_ & V & _). exact (V p d h Hp E). Qed.
  Lemma splitter_list_at s : In s splitter_list <-> is_splitter_at A T s.
  Proof.
    unfold splitter_list. rewrite in_flat_map. split.
    - intros (p & Hp & Hs). apply cells_inside in Hp. destruct (T p) as [| | | |d [|]| |] eqn:Tp; try contradiction.
      destruct (neighbour A p (anticlockwise d)) as [q|] eqn:En; [|contradiction]. destruct Hs as [<-|[]].
      split; [exact Hp|]. split; [cbn; eapply ahead_inside; exact En|]. exists d. cbn [fst snd]. split; [exact Tp|]. split; [|exact En].
      destruct (mate p d true Hp Tp) as (q' & En' & Tq). cbn [mate_side] in En'. rewrite En in En'. injection En' as <-. exact Tq.
    - intros (Hp & Hq & d & T1 & T2 & En). exists (fst s). split; [apply cells_inside; exact Hp|]. rewrite T1, En. left. destruct s; reflexivity.
  Qed.
  Lemma splitter_halves p d h : inside A p -> T p = Splitter d h -> exists s, In s splitter_list /\ (if h then fst s else snd s) = p.
  Proof.
    intros Hp Tp. destruct (mate p d h Hp Tp) as (q & En & Tq). assert (Hq : inside A q) by (eapply ahead_inside; exact En). destruct h.
    - exists (p, q). split; [|reflexivity]. apply splitter_list_at. split; [exact Hp|]. split; [exact Hq|]. exists d. auto.
    - exists (q, p). split; [|reflexivity]. apply splitter_list_at. split; [exact Hq|]. split; [exact Hp|]. exists d. split; [exact Tq|]. split; [exact Tp|].
      pose proof (neighbour_back _ _ _ _ WA Hp En) as B. cbn [fst snd mate_side] in *. rewrite <- B. f_equal. destruct d; reflexivity.
  Qed.
  Definition halves_list : list pos := flat_map (fun s => [fst s; snd s]) splitter_list.
  Lemma halves_NoDup : NoDup halves_list.
  Proof.
    unfold halves_list. apply NoDup_flat_map.
    - unfold splitter_list. apply NoDup_flat_map; [apply iterate_tiles_NoDup| |].
      + intros p _. destruct (T p) as [| | | |d [|]| |]; try constructor. destruct (neighbour A p (anticlockwise d)); repeat constructor. intros [].
      + intros p q s _ _ H1 H2.
        assert (X : forall r, In s (match T r with Splitter d true => match neighbour A r (anticlockwise d) with Some q => [(r, q)] | None => [] end | _ => [] end) -> fst s = r).
        { intros r H. destruct (T r) as [| | | |d [|]| |]; try contradiction. destruct (neighbour A r (anticlockwise d)); [|contradiction]. destruct H as [<-|[]]. reflexivity. }
        rewrite <- (X p H1). apply X. exact H2.
    - intros s Hs. apply splitter_list_at in Hs. destruct Hs as (_ & _ & d & T1 & T2 & _).
      repeat constructor; intros []; try contradiction. rewrite H in T2. congruence.
    - intros s s' b Hs Hs' Hb Hb'. apply splitter_list_at in Hs, Hs'. destruct Hs as (P1 & P2 & d & T1 & T2 & N). destruct Hs' as (P1' & P2' & d' & T1' & T2' & N').
      assert (X : fst s = fst s' -> s = s').
      { intros Ef. destruct s as [u v], s' as [u' v']. cbn [fst snd] in *. subst u'. rewrite T1 in T1'. injection T1' as <-. rewrite N in N'. injection N' as <-. reflexivity. }
      destruct Hb as [<-|[<-|[]]], Hb' as [Eb|[Eb|[]]].
      + apply X. congruence.
      + rewrite Eb in T2'. congruence.
      + rewrite Eb in T1'. congruence.
      + apply X. rewrite Eb in T2'. rewrite T2 in T2'. injection T2' as <-.
        pose proof (neighbour_back _ _ _ _ WA P1 N) as B. pose proof (neighbour_back _ _ _ _ WA P1' N') as B'. rewrite Eb in B'. rewrite B in B'. congruence.
  Qed.
  Lemma halves_in p : In p halves_list <-> inside A p /\ is_splitter_tile (T p).
  Proof.
    unfold halves_list. rewrite in_flat_map. split.
    - intros (s & Hs & Hp). apply splitter_list_at in Hs. destruct Hs as (P1 & P2 & d & T1 & T2 & _). destruct Hp as [<-|[<-|[]]]; (split; [assumption|]).
      + rewrite T1. exact Logic.I.
      + rewrite T2. exact Logic.I.
    - intros [Hp Sp]. destruct (T p) as [| | | |d h| |] eqn:Tp; try contradiction. destruct (splitter_halves p d h Hp Tp) as (s & Hs & E).
      exists s. split; [exact Hs|]. destruct h; cbn; auto.
  Qed.

  (** Where items enter and leave. *)
  Definition is_outlet (p : pos) : bool := negb (match T p with Splitter _ _ => true | _ => false end) &&
    existsb (fun d => pushesb (T p) d && match neighbour A p d with None => true | _ => false end) [RIGHT; UP; LEFT; DOWN].
  Definition is_inlet (p : pos) : bool :=
    existsb (fun d => takesb (T p) d && match neighbour A p (opposite d) with None => true | _ => false end) [RIGHT; UP; LEFT; DOWN].
  Definition outlet_list : list pos := filter is_outlet (area_cells A).
  Definition inlet_list : list pos := filter is_inlet (area_cells A).
  Lemma all_dirs (d : dir) : In d [RIGHT; UP; LEFT; DOWN].
  Proof. destruct d; cbn; auto. Qed.
  Lemma outlet_in p : In p outlet_list <-> reaches A T (Leave p) p.
  Proof.
    unfold outlet_list. rewrite filter_In, cells_inside. cbn [reaches]. unfold is_outlet. rewrite andb_true_iff, existsb_exists. split.
    - intros (Hp & N & d & _ & H). apply andb_true_iff in H. destruct H as [P E]. apply pushesb_iff in P.
      split; [reflexivity|]. split; [exact Hp|]. split; [intros Sp; destruct (T p); try contradiction; discriminate|].
      exists d. split; [exact P|]. destruct (neighbour A p d); [discriminate|reflexivity].
    - intros (_ & Hp & N & d & P & E). split; [exact Hp|]. split; [destruct (T p); try reflexivity; exfalso; apply N; exact Logic.I|].
      exists d. split; [apply all_dirs|]. rewrite E. apply pushesb_iff in P. rewrite P. reflexivity.
  Qed.
  Lemma inlet_in p : In p inlet_list <-> begins A T (Enter p) p.
  Proof.
    unfold inlet_list. rewrite filter_In, cells_inside. cbn [begins]. unfold is_inlet. rewrite existsb_exists. split.
    - intros (Hp & d & _ & H). apply andb_true_iff in H. destruct H as [P E]. apply takesb_iff in P.
      split; [reflexivity|]. split; [exact Hp|]. exists d. split; [exact P|]. destruct (neighbour A p (opposite d)); [discriminate|reflexivity].
    - intros (_ & Hp & d & P & E). split; [exact Hp|]. exists d. split; [apply all_dirs|]. rewrite E. apply takesb_iff in P. rewrite P. reflexivity.
  Qed.
  Lemma lists_NoDup : NoDup outlet_list /\ NoDup inlet_list.
  Proof. split; apply NoDup_filter, iterate_tiles_NoDup. Qed.

  (** Every outlet is at the end of a line. *)
  Lemma outlet_joined p : reaches A T (Leave p) p -> exists s, joined A T L s (Leave p).
  Proof.
    intros R. pose proof R as (_ & Hp & N & d & P & E).
    destruct (trace_back A T L WA VL p) as (s & q & B & C).
    - split; [exact Hp|]. destruct (T p) as [| |i o|f b|f h|f k|x y] eqn:Tp; try contradiction.
      + right. exists i. split; [reflexivity|]. destruct (neighbour A p (opposite i)) as [b|] eqn:Eb; [|exact Logic.I].
        eapply (supplied A T L VL); [exact Hp|rewrite Tp; reflexivity|rewrite Tp; intros []|exact Eb].
      + destruct b; [contradiction|]. left. eauto.
      + exfalso. apply N. exact Logic.I.
    - apply (reaches_last A T L (Leave p) p R).
    - exists s, q, p. auto.
  Qed.

  (** Whether the sides of a splitter half are connected. *)
  Lemma exit_used_dec p d h : inside A p -> T p = Splitter d h -> exit_used A T L p \/ ~ exit_used A T L p.
  Proof.
    intros Hp Tp. destruct (neighbour A p d) as [q|] eqn:En.
    - destruct (takesb (T q) d) eqn:Tk.
      + left. apply takesb_iff in Tk. assert (B : begins A T (Exit p) q) by (split; [exact Hp|]; exists d, h; auto).
        destruct (trace_forward A T L WA VL _ _ B) as (f & r & C & R). exists f, q, r. auto.
      + right. intros (f & q' & r & (_ & d' & h' & Tp' & En' & Tk') & _). rewrite Tp in Tp'. injection Tp' as <- <-. rewrite En in En'. injection En' as <-.
        apply takesb_iff in Tk'. congruence.
    - right. intros (f & q' & r & (_ & d' & h' & Tp' & En' & Tk') & _). rewrite Tp in Tp'. injection Tp' as <- <-. congruence.
  Qed.
  Lemma entrance_used_dec p d h : inside A p -> T p = Splitter d h -> entrance_used A T L p \/ ~ entrance_used A T L p.
  Proof.
    intros Hp Tp. assert (Rp : reaches A T (Entrance p) p) by (split; [reflexivity|]; split; [exact Hp|]; rewrite Tp; exact Logic.I).
    assert (X : match neighbour A p (opposite d) with None => True | Some b => pushes (T b) d end \/ ~ match neighbour A p (opposite d) with None => True | Some b => pushes (T b) d end).
    { destruct (neighbour A p (opposite d)) as [b|]; [|left; exact Logic.I]. destruct (pushesb (T b) d) eqn:Pb; [left|right].
      - apply pushesb_iff. exact Pb.
      - rewrite <- pushesb_iff. congruence. }
    destruct X as [X|X].
    - left. destruct (trace_back A T L WA VL p) as (s & q & B & C).
      + split; [exact Hp|]. right. exists d. split; [rewrite Tp; reflexivity|exact X].
      + apply (reaches_last A T L (Entrance p) p Rp).
      + exists s, q, p. auto.
    - right. intros (s & q & r & B & C & (-> & _)). apply X. apply (carried_inv A T L) in C.
      destruct C as [->|(y & Hs & _)].
      + destruct s as [e|e].
        * destruct B as (-> & _ & d' & Tk & Eb). rewrite Tp in Tk. cbn in Tk. subst d'. rewrite Eb. exact Logic.I.
        * destruct B as (He & d' & h' & Te & Eb & Tk). rewrite Tp in Tk. cbn in Tk. subst d'. rewrite (neighbour_back _ _ _ _ WA He Eb). rewrite Te. reflexivity.
      + destruct Hs as [(Hy & N & d' & Pd & E)|(Hy & d' & Ty & Tq & _)]; [|congruence].
        pose proof (received A T L VL _ _ _ Hy Pd N E) as Tk. rewrite Tp in Tk. cbn in Tk. subst d'. rewrite (neighbour_back _ _ _ _ WA Hy E). exact Pd.
  Qed.

  (** A steady flow into which nothing enters delivers nothing. *)
  Theorem no_source into from : steady_flow A T L into from ->
    (forall p, begins A T (Enter p) p -> into (Enter p) == 0)%Q ->
    forall p, reaches A T (Leave p) p -> (from (Leave p) == 0)%Q.
  Proof.
    intros (St1 & St2 & St3) Z0 p Rp.
    set (F := (map Leave outlet_list ++ map Entrance halves_list)%list).
    set (S := (map Enter inlet_list ++ map Exit halves_list)%list).
    assert (NF : NoDup F).
    { unfold F.
      assert (N1 : NoDup (map Leave outlet_list)) by (apply NoDup_map_inj; [intros x y [=]; assumption|apply lists_NoDup]).
      assert (N2 : NoDup (map Entrance halves_list)) by (apply NoDup_map_inj; [intros x y [=]; assumption|apply halves_NoDup]).
      assert (D : forall x, In x (map Leave outlet_list) -> ~ In x (map Entrance halves_list)).
      { intros x H1 H2. apply in_map_iff in H1, H2. destruct H1 as (u & <- & _). destruct H2 as (v & [=] & _). }
      revert N1 D. generalize (map Leave outlet_list). intros l. induction l as [|x l IH]; intros N1 D; [exact N2|].
      apply NoDup_cons_iff in N1. destruct N1 as [Nx N1]. cbn [app]. constructor.
      - rewrite in_app_iff. intros [H|H]; [contradiction|]. eapply D; [left; reflexivity|exact H].
      - apply IH; [exact N1|]. intros y Hy. apply D. right. exact Hy. }
    assert (Mem : forall s q, begins A T s q -> In s S).
    { intros s q B. unfold S. apply in_app_iff. destruct s as [e|e].
      - left. apply in_map. apply inlet_in. pose proof B as (-> & _). exact B.
      - right. apply in_map. apply halves_in. destruct B as (He & d & h & Te & _). split; [exact He|]. rewrite Te. exact Logic.I. }
    assert (X : (qsum (map (fun f => Qabs (from f)) F) <= qsum (map (fun s => Qabs (into s)) S))%Q).
    { apply (transfer (joined A T L)); auto.
      - intros x. apply Qabs_nonneg.
      - intros s f f'. apply (joined_fun A T L).
      - intros f Hf. unfold F in Hf. apply in_app_iff in Hf.
        assert (Y : (exists s, joined A T L s f) \/ (from f == 0)%Q).
        { destruct Hf as [Hf|Hf]; apply in_map_iff in Hf; destruct Hf as (q & <- & Hq).
          - left. apply outlet_joined. apply outlet_in. exact Hq.
          - apply halves_in in Hq. destruct Hq as [Hq Sq]. destruct (T q) as [| | | |d h| |] eqn:Tq; try contradiction.
            destruct (entrance_used_dec q d h Hq Tq) as [U|U]; [left; exact U|right]. apply (St2 q Hq); [rewrite Tq; exact Logic.I|exact U]. }
        destruct Y as [(s & J)|Y].
        + right. exists s. pose proof J as (q & r & B & _). split; [eapply Mem; exact B|]. split; [exact J|]. rewrite (St1 s f J). reflexivity.
        + left. rewrite Y. reflexivity. }
    assert (Sp : (qsum (map (fun q => Qabs (into (Exit q))) halves_list) <= qsum (map (fun q => Qabs (from (Entrance q))) halves_list))%Q).
    { unfold halves_list. assert (H : forall s, In s splitter_list -> is_splitter_at A T s) by (intros s; apply splitter_list_at).
      induction splitter_list as [|s l IH]; [apply Qle_refl|]. cbn [flat_map app map qsum fold_right].
      fold (qsum (map (fun q => Qabs (into (Exit q))) (flat_map (fun s => [fst s; snd s]) l))). fold (qsum (map (fun q => Qabs (from (Entrance q))) (flat_map (fun s => [fst s; snd s]) l))).
      specialize (IH (fun x Hx => H x (or_intror Hx))). pose proof (H s (or_introl eq_refl)) as Hs. destruct (St3 s Hs) as [Q1 Q2].
      assert (K : (Qabs (into (Exit (fst s))) + Qabs (into (Exit (snd s))) <= Qabs (from (Entrance (fst s))) + Qabs (from (Entrance (snd s))))%Q).
      { pose proof (Qabs_triangle (from (Entrance (fst s))) (from (Entrance (snd s)))) as Tr.
        destruct Hs as (P1 & P2 & d & T1 & T2 & _).
        assert (E : (Qabs (into (Exit (fst s))) + Qabs (into (Exit (snd s))) == Qabs (into (Exit (fst s)) + into (Exit (snd s))))%Q).
        { destruct (exit_used_dec _ _ _ P1 T1) as [U1|U1].
          - destruct (exit_used_dec _ _ _ P2 T2) as [U2|U2].
            + rewrite <- (Q2 U1 U2). set (x := into (Exit (fst s))). destruct (Qlt_le_dec x 0) as [Hx|Hx].
              * rewrite !Qabs_neg by lra. lra.
              * rewrite !Qabs_pos by lra. lra.
            + destruct (St2 _ P2) as [Z1 _]; [rewrite T2; exact Logic.I|]. rewrite (Z1 U2). rewrite Qplus_0_r. cbn. rewrite Qplus_0_r. reflexivity.
          - destruct (St2 _ P1) as [Z1 _]; [rewrite T1; exact Logic.I|]. rewrite (Z1 U1). rewrite Qplus_0_l. cbn. rewrite Qplus_0_l. reflexivity. }
        rewrite E, Q1. exact Tr. }
      lra. }
    unfold F, S in X. rewrite !map_app, !map_map, !qsum_app in X.
    assert (Z1 : (qsum (map (fun q => Qabs (into (Enter q))) inlet_list) == 0)%Q).
    { assert (H : forall q, In q inlet_list -> (into (Enter q) == 0)%Q) by (intros q Hq; apply Z0, inlet_in; exact Hq).
      apply qsum_zero. intros x Hx. apply in_map_iff in Hx. destruct Hx as (q & <- & Hq). rewrite (H q Hq). reflexivity. }
    rewrite Z1 in X.
    assert (M : (Qabs (from (Leave p)) <= qsum (map (fun q => Qabs (from (Leave q))) outlet_list))%Q).
    { apply qsum_member; [apply in_map_iff; exists p; split; [reflexivity|apply outlet_in; exact Rp]|].
      intros y Hy. apply in_map_iff in Hy. destruct Hy as (r & <- & _). apply Qabs_nonneg. }
    assert (K : (Qabs (from (Leave p)) <= 0)%Q) by lra.
    pose proof (Qle_Qabs (from (Leave p))) as B1. pose proof (Qle_Qabs (- from (Leave p))) as B2. rewrite Qabs_opp in B2. lra.
  Qed.

  (** Steady flows can be added and scaled. *)
  Lemma steady_combine into from into' from' (k : Q) : steady_flow A T L into from -> steady_flow A T L into' from' ->
    steady_flow A T L (fun s => into s + k * into' s)%Q (fun f => from f + k * from' f)%Q.
  Proof.
    intros (S1 & S2 & S3) (R1 & R2 & R3). split; [|split].
    - intros s f J. rewrite (S1 s f J), (R1 s f J). reflexivity.
    - intros p Hp Sp. destruct (S2 p Hp Sp) as [A1 A2]. destruct (R2 p Hp Sp) as [B1 B2]. split; intros N.
      + rewrite (A1 N), (B1 N). ring.
      + rewrite (A2 N), (B2 N). ring.
    - intros s Hs. destruct (S3 s Hs) as [A1 A2]. destruct (R3 s Hs) as [B1 B2]. split.
      + transitivity ((into (Exit (fst s)) + into (Exit (snd s))) + k * (into' (Exit (fst s)) + into' (Exit (snd s))))%Q; [ring|]. rewrite A1, B1. ring.
      + intros U1 U2. rewrite (A2 U1 U2), (B2 U1 U2). reflexivity.
  Qed.

  (** When for every inlet some steady flow carries one unit from it alone and
      delivers the same share at all outlets, every steady flow does so. *)
  Theorem shares_by_units ins outs (share : Q) : inlets A T ins -> outlets A T outs ->
    (forall q, In q ins -> exists into from, steady_flow A T L into from /\
       (forall r, In r ins -> into (Enter r) == if pos_dec r q then 1 else 0)%Q /\
       forall p, In p outs -> (from (Leave p) == share)%Q) ->
    forall into from, steady_flow A T L into from ->
    forall p, In p outs -> (from (Leave p) == share * qsum (map (fun q => into (Enter q)) ins))%Q.
  Proof.
    intros [Ni Ii] [No Io] U into from St p Hp.
    assert (G : forall l, NoDup l -> incl l ins -> exists into' from', steady_flow A T L into' from' /\
      (forall r, In r ins -> (into' (Enter r) == into (Enter r) - if in_dec pos_dec r l then into (Enter r) else 0)%Q) /\
      forall q, In q outs -> (from' (Leave q) == from (Leave q) - share * qsum (map (fun q => into (Enter q)) l))%Q).
    { induction l as [|x l IH]; intros Nl Il.
      - exists into, from. split; [exact St|]. split; intros; cbn; ring.
      - apply NoDup_cons_iff in Nl. destruct Nl as [Nx Nl].
        destruct IH as (i1 & f1 & S1 & E1 & O1); [exact Nl|intros y Hy; apply Il; right; exact Hy|].
        destruct (U x) as (i2 & f2 & S2 & E2 & O2); [apply Il; left; reflexivity|].
        exists (fun s => i1 s + (- into (Enter x)) * i2 s)%Q, (fun f => f1 f + (- into (Enter x)) * f2 f)%Q. split; [apply steady_combine; assumption|]. split.
        + intros r Hr. rewrite (E1 r Hr), (E2 r Hr). destruct (pos_dec r x) as [->|Hne].
          * destruct (in_dec pos_dec x l); [contradiction|]. destruct (in_dec pos_dec x (x :: l)) as [|N]; [ring|exfalso; apply N; left; reflexivity].
          * destruct (in_dec pos_dec r l) as [H|H]; destruct (in_dec pos_dec r (x :: l)) as [H'|H']; try ring.
            -- exfalso. apply H'. right. exact H.
            -- exfalso. destruct H' as [H'|H']; [congruence|contradiction].
        + intros q Hq. rewrite (O1 q Hq), (O2 q Hq). cbn [map qsum fold_right]. fold (qsum (map (fun q => into (Enter q)) l)). ring. }
    destruct (G ins Ni (fun x H => H)) as (i' & f' & S' & E' & O').
    assert (Z0 : (f' (Leave p) == 0)%Q).
    { apply (no_source i' f' S'); [|apply Io; exact Hp]. intros q Bq. apply Ii in Bq. rewrite (E' q Bq). destruct (in_dec pos_dec q ins); [ring|contradiction]. }
    rewrite (O' p Hp) in Z0. lra.
  Qed.
End Uniq.
