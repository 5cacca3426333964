(** * Several coordinates of the Sobol' sequence together. *)
From Coq Require Import Reals List Arith NArith ZArith Bool Lia Lra FinFun.
From Verif Require Import Base Arrays ModelSobolSeq SpecSobolSeq ProofsSobolSeq.
Import ListNotations.
Local Open Scope nat_scope.

(** ** Linear independence over two elements *)
Fixpoint reduce (c : N) (b : N) (l : list N) : list N :=
  match l with [] => [] | x :: r => (if N.testbit x b then N.lxor x c else x) :: reduce c b r end.
Lemma reduce_map : forall c b l, reduce c b l = map (fun x => if N.testbit x b then N.lxor x c else x) l.
Proof. induction l as [|x l IH]; [reflexivity|]. cbn. rewrite IH. reflexivity. Qed.

Fixpoint indep_n (n : nat) (l : list N) : bool :=
  match n, l with
  | _, [] => true
  | 0, _ => false
  | S n, c :: r => if N.eqb c 0 then false else indep_n n (reduce c (N.log2 c) r)
  end.
Definition indep (l : list N) : bool := indep_n (length l) l.

Definition comb (c : nat -> N) (e : nat -> bool) (is : list nat) : N :=
  fold_right (fun i acc => if e i then N.lxor (c i) acc else acc) 0%N is.

Lemma comb_bit : forall c c0 b e is,
  N.testbit c0 b = true ->
  let c' i := if N.testbit (c i) b then N.lxor (c i) c0 else c i in
  comb c' e is = N.lxor (comb c e is) (if N.testbit (comb c e is) b then c0 else 0%N).
Proof.
  intros c c0 b e is H0 c'. induction is as [|i is IH]; [reflexivity|]. cbn [comb fold_right]. fold (comb c e is). fold (comb c' e is).
  destruct (e i); [|exact IH]. rewrite IH, N.lxor_spec. unfold c'.
  destruct (N.testbit (c i) b), (N.testbit (comb c e is) b); cbn [xorb]; apply N.bits_inj; intros t; rewrite ?N.lxor_spec, ?N.bits_0;
    destruct (N.testbit (c i) t), (N.testbit (comb c e is) t), (N.testbit c0 t); reflexivity.
Qed.
Lemma comb_zero : forall c e is, (forall i, In i is -> e i = false) -> comb c e is = 0%N.
Proof. induction is as [|i is IH]; intros H; [reflexivity|]. cbn. rewrite H by (left; reflexivity). apply IH. intros. apply H. right. assumption. Qed.

Lemma indep_sound : forall n is c e, length is <= n -> indep_n n (map c is) = true -> comb c e is = 0%N -> forall i, In i is -> e i = false.
Proof.
  induction n as [|n IH]; intros is c e Hl HI HC i Hi; destruct is as [|i0 is]; try (destruct Hi; fail); [cbn in Hl; lia|].
  cbn [map indep_n] in HI. destruct (N.eqb_spec (c i0) 0) as [|Hc]; [discriminate|]. rewrite reduce_map, map_map in HI.
  set (c0 := c i0) in *. set (b := N.log2 c0) in *.
  assert (B0 : N.testbit c0 b = true) by (apply N.bit_log2; assumption).
  pose proof (comb_bit c c0 b e is B0) as CB. cbv zeta in CB. cbn in Hl.
  specialize (IH is (fun i => if N.testbit (c i) b then N.lxor (c i) c0 else c i) e ltac:(lia) HI). rewrite CB in IH.
  cbn [comb fold_right] in HC. fold (comb c e is) in HC. destruct (e i0) eqn:E0.
  - exfalso. apply N.lxor_eq in HC. fold c0 in HC. rewrite <- HC, B0, N.lxor_nilpotent in IH. apply Hc. rewrite HC. apply comb_zero. exact (IH eq_refl).
  - destruct Hi as [<-|Hi]; [assumption|]. rewrite HC in IH. cbn in IH. exact (IH eq_refl i Hi).
Qed.

(** ** Numbering the boxes *)
Definition code (l : list (N * nat)) : N := fold_right (fun xk acc => N.lxor (fst xk) (N.shiftl acc (N.of_nat (snd xk)))) 0%N l.
Definition total (l : list nat) : nat := fold_right plus 0 l.

Lemma code_range : forall l, Forall (fun xk => (fst xk < 2 ^ N.of_nat (snd xk))%N) l -> (code l < 2 ^ N.of_nat (total (map snd l)))%N.
Proof.
  induction l as [|[x k] l IH]; intros F; [reflexivity|]. inversion F; subst. cbn [code fold_right fst snd map total] in *. fold (code l). fold (total (map snd l)).
  apply below_of_bits. intros b Hb. rewrite N.lxor_spec. rewrite (testbit_above x (N.of_nat k)) by (assumption || lia).
  rewrite N.shiftl_spec_high' by lia. rewrite (testbit_above (code l) (N.of_nat (total (map snd l)))) by (try apply IH; assumption || lia). reflexivity.
Qed.
Lemma code_inj : forall l l', map snd l = map snd l' -> Forall (fun xk => (fst xk < 2 ^ N.of_nat (snd xk))%N) l -> Forall (fun xk => (fst xk < 2 ^ N.of_nat (snd xk))%N) l' ->
  code l = code l' -> l = l'.
Proof.
  induction l as [|[x k] l IH]; intros [|[y k'] l'] M F F' E; try discriminate; [reflexivity|]. cbn in M. injection M as <- M. inversion F; inversion F'; subst. cbn [fst snd] in *.
  cbn [code fold_right fst snd] in E. fold (code l) in E. fold (code l') in E.
  assert (B : forall b, N.testbit (N.lxor x (N.shiftl (code l) (N.of_nat k))) b = N.testbit (N.lxor y (N.shiftl (code l') (N.of_nat k))) b) by (intros; rewrite E; reflexivity).
  f_equal.
  - f_equal. apply N.bits_inj. intros b. destruct (N.lt_ge_cases b (N.of_nat k)) as [Hb|Hb].
    + specialize (B b). rewrite !N.lxor_spec, !N.shiftl_spec_low, !xorb_false_r in B by assumption. exact B.
    + rewrite (testbit_above x (N.of_nat k)), (testbit_above y (N.of_nat k)) by assumption. reflexivity.
  - apply IH; try assumption. apply N.bits_inj. intros b. specialize (B (b + N.of_nat k)%N).
    rewrite !N.lxor_spec, !N.shiftl_spec_high' in B by lia. rewrite (testbit_above x (N.of_nat k)), (testbit_above y (N.of_nat k)) in B by (assumption || lia).
    rewrite N.add_sub, !xorb_false_l in B. exact B.
Qed.

(** The number of the box of a combination of direction numbers. *)
Definition top (k : nat) (x : N) : N := N.shiftr x (31 - N.of_nat k).
Definition box_of (cols : list (list N * nat)) (x : list N -> N) : list (N * nat) := map (fun Vk => (top (snd Vk) (x (fst Vk)), snd Vk)) cols.

Lemma code_lxor : forall cols x y, code (box_of cols (fun V => N.lxor (x V) (y V))) = N.lxor (code (box_of cols x)) (code (box_of cols y)).
Proof.
  induction cols as [|[V k] cols IH]; intros x y; [reflexivity|]. cbn [box_of map code fold_right fst snd].
  change (fold_right _ 0%N (map _ cols)) with (code (box_of cols (fun V => N.lxor (x V) (y V)))) at 1. rewrite IH.
  change (fold_right _ 0%N (map (fun Vk => (top (snd Vk) (x (fst Vk)), snd Vk)) cols)) with (code (box_of cols x)).
  change (fold_right _ 0%N (map (fun Vk => (top (snd Vk) (y (fst Vk)), snd Vk)) cols)) with (code (box_of cols y)).
  unfold top. rewrite N.shiftr_lxor, N.shiftl_lxor. apply N.bits_inj. intros b. rewrite !N.lxor_spec.
  destruct (N.testbit (N.shiftr (x V) _) b), (N.testbit (N.shiftr (y V) _) b), (N.testbit (N.shiftl _ _) b), (N.testbit (N.shiftl _ _) b); reflexivity.
Qed.
Lemma code_0 : forall cols, code (box_of cols (fun _ => 0%N)) = 0%N.
Proof.
  induction cols as [|[V k] cols IH]; [reflexivity|]. cbn [box_of map code fold_right fst snd].
  change (fold_right _ 0%N (map _ cols)) with (code (box_of cols (fun _ => 0%N))). rewrite IH. unfold top. rewrite N.shiftr_0_l, N.shiftl_0_l. reflexivity.
Qed.
Definition column_code (cols : list (list N * nat)) (i : nat) : N := code (box_of cols (fun V => nth (S i) V 0%N)).

Lemma code_lin : forall cols g is, code (box_of cols (fun V => lin V g is)) = comb (column_code cols) (fun i => N.testbit g (N.of_nat i)) is.
Proof.
  induction is as [|i is IH]; [apply code_0|]. cbn [lin comb fold_right]. destruct (N.testbit g (N.of_nat i)); [|exact IH].
  change (code (box_of cols (fun V => N.lxor (nth (S i) V 0%N) (lin V g is))) = N.lxor (column_code cols i) (comb (column_code cols) (fun i => N.testbit g (N.of_nat i)) is)).
  rewrite code_lxor, IH. reflexivity.
Qed.

Lemma box_of_snd : forall cols x, map snd (box_of cols x) = map snd cols.
Proof. intros. unfold box_of. rewrite map_map. reflexivity. Qed.
Lemma box_of_ext : forall cols x y, (forall Vk, In Vk cols -> x (fst Vk) = y (fst Vk)) -> box_of cols x = box_of cols y.
Proof. intros cols x y H. apply map_ext_in. intros Vk I. rewrite (H Vk I). reflexivity. Qed.
Lemma box_of_range : forall cols x, Forall (fun Vk => (x (fst Vk) < 2 ^ 31)%N /\ snd Vk <= 31) cols ->
  Forall (fun xk => (fst xk < 2 ^ N.of_nat (snd xk))%N) (box_of cols x).
Proof.
  intros cols x F. unfold box_of. rewrite Forall_map. revert F. apply Forall_impl. intros [V k] (H & K). cbn [fst snd] in *.
  apply below_of_bits. intros b Hb. unfold top. rewrite N.shiftr_spec by lia. apply testbit_above with 31%N; [assumption|lia].
Qed.

Lemma total_In : forall ks k, In k ks -> k <= total ks.
Proof. induction ks as [|a ks IH]; intros k []; cbn [total fold_right]; fold (total ks); [lia|]. specialize (IH k H). lia. Qed.

(** ** Blocks of points *)
Section Block.
Variables (cols : list (list N * nat)) (L m : nat).
Hypothesis (HL31 : L <= 31) (Hm : total (map snd cols) = m) (HmL : m <= L).
Hypothesis (HF : Forall (fun Vk => filled (fst Vk) L L) cols).
Hypothesis (HI : indep (map (column_code cols) (seq 0 m)) = true).


Lemma points_range : forall j, j < 2 ^ L -> Forall (fun xk => (fst xk < 2 ^ N.of_nat (snd xk))%N) (box_of cols (fun V => point V j)).
Proof.
  intros j Hj. apply box_of_range. rewrite Forall_forall in *. intros Vk I. split.
  - apply point_range with L; auto.
  - assert (snd Vk <= total (map snd cols)) by (apply total_In, in_map; assumption). lia.
Qed.

Lemma lin_short : forall V g, (g < 2 ^ N.of_nat m)%N -> lin V g (seq 0 L) = lin V g (seq 0 m).
Proof.
  intros V g Hg. replace L with (m + (L - m)) by lia. rewrite seq_app. unfold lin at 1. rewrite fold_right_app. unfold lin. f_equal.
  assert (Z : forall is, (forall i, In i is -> m <= i) -> fold_right (fun i acc => if N.testbit g (N.of_nat i) then N.lxor (nth (S i) V 0%N) acc else acc) 0%N is = 0%N).
  { induction is as [|i is IH]; intros H; [reflexivity|]. cbn [fold_right]. rewrite (testbit_above g (N.of_nat m)) by (assumption || (specialize (H i (or_introl eq_refl)); lia)).
    apply IH. intros. apply H. right. assumption. }
  apply Z. intros i Hi. apply in_seq in Hi. lia.
Qed.

Lemma block_boxes : forall q j j', (q + 1) * 2 ^ m <= 2 ^ L ->
  q * 2 ^ m <= j < (q + 1) * 2 ^ m -> q * 2 ^ m <= j' < (q + 1) * 2 ^ m ->
  code (box_of cols (fun V => point V j)) = code (box_of cols (fun V => point V j')) -> j = j'.
Proof.
  intros q j j' Hq Hj Hj' E.
  set (d := N.lxor (N.of_nat j) (N.of_nat j')).
  assert (Hdk : (d < 2 ^ N.of_nat m)%N).
  { apply below_of_bits. intros b Hb. unfold d. rewrite N.lxor_spec.
    assert (Q : forall x, q * 2 ^ m <= x < (q + 1) * 2 ^ m -> N.testbit (N.of_nat x) b = N.testbit (N.of_nat q) (b - N.of_nat m)).
    { intros x Hx. replace b with ((b - N.of_nat m) + N.of_nat m)%N at 1 by lia.
      rewrite <- N.shiftr_spec by lia. f_equal. rewrite N.shiftr_div_pow2, <- pow_N_nat.
      symmetry. apply N.div_unique with (N.of_nat (x - q * 2 ^ m)); lia. }
    rewrite (Q j Hj), (Q j' Hj'). apply xorb_nilpotent. }
  assert (G0 : (gray d < 2 ^ N.of_nat m)%N).
  { apply below_of_bits. intros b Hb. rewrite gray_spec. rewrite !(testbit_above d (N.of_nat m)) by (assumption || lia). reflexivity. }
  assert (C0 : comb (column_code cols) (fun i => N.testbit (gray d) (N.of_nat i)) (seq 0 m) = 0%N).
  { rewrite <- code_lin. rewrite (box_of_ext cols _ (fun V => N.lxor (point V j) (point V j'))).
    - rewrite code_lxor, E. apply N.lxor_nilpotent.
    - intros Vk I. rewrite <- lin_short by assumption. unfold d. rewrite gray_lxor, lin_lxor.
      rewrite Forall_forall in HF. rewrite <- !(point_lin _ L HL31) by lia. reflexivity. }
  assert (Z : gray d = 0%N).
  { apply N.bits_inj. intros b. rewrite N.bits_0. destruct (N.lt_ge_cases b (N.of_nat m)) as [Hb|Hb].
    - replace b with (N.of_nat (N.to_nat b)) by lia.
      apply (indep_sound _ (seq 0 m) (column_code cols) (fun i => N.testbit (gray d) (N.of_nat i)) (Nat.le_refl _)); [|exact C0|apply in_seq; lia].
      unfold indep in HI. rewrite map_length in HI. exact HI.
    - apply testbit_above with (N.of_nat m); assumption. }
  assert (D0 : d = 0%N).
  { destruct (N.eq_dec d 0) as [H|H]; [assumption|exfalso]. assert (B : N.testbit (gray d) (N.log2 d) = true).
    { rewrite gray_spec, N.bit_log2 by assumption. rewrite N.bits_above_log2 by lia. reflexivity. }
    rewrite Z, N.bits_0 in B. discriminate. }
  unfold d in D0. apply N.lxor_eq in D0. lia.
Qed.

(** Each aligned block of 2^m points meets each box exactly once. *)
Lemma block_netted : forall q target, (q + 1) * 2 ^ m <= 2 ^ L -> map snd target = map snd cols ->
  Forall (fun xk => (fst xk < 2 ^ N.of_nat (snd xk))%N) target ->
  exists j, q * 2 ^ m <= j < (q + 1) * 2 ^ m /\ box_of cols (fun V => point V j) = target /\
    forall j', q * 2 ^ m <= j' < (q + 1) * 2 ^ m -> box_of cols (fun V => point V j') = target -> j' = j.
Proof.
  intros q target Hq Ht Hr.
  set (f := fun r => N.to_nat (code (box_of cols (fun V => point V (q * 2 ^ m + r))))).
  assert (BF : bFun (2 ^ m) f).
  { intros r Hr'. unfold f. pose proof (code_range _ (points_range (q * 2 ^ m + r) ltac:(lia))) as R1. rewrite box_of_snd, Hm, <- pow_N_nat in R1. lia. }
  assert (BI : bInjective (2 ^ m) f).
  { intros r r' Hr1 Hr2 E. unfold f in E. apply N2Nat.inj in E. apply (block_boxes q) in E; lia. }
  pose proof (code_range _ Hr) as R1. rewrite Ht, Hm, <- pow_N_nat in R1.
  destruct (proj1 (bInjective_bSurjective BF) BI (N.to_nat (code target)) ltac:(lia)) as (r & Hr' & Er). unfold f in Er. apply N2Nat.inj in Er.
  exists (q * 2 ^ m + r). split; [lia|]. split.
  - apply code_inj; [rewrite box_of_snd; congruence|apply points_range; lia|assumption|assumption].
  - intros j' Hj' E'. apply (block_boxes q); [assumption|assumption|lia|]. rewrite E', Er. reflexivity.
Qed.
End Block.

(** ** The public function *)
(** The direction numbers of the listed coordinates have independent leading bits. *)
Definition net_ok (table : list (list N)) (L : nat) (dims : list (nat * nat)) : bool :=
  match mapM (fun dk => do V <- dimension_V table L (fst dk) ;; Ok (V, snd dk)) dims with
  | Ok cols => indep (map (column_code cols) (seq 0 (total (map snd dims))))
  | Err _ => false
  end.

Lemma sequence_boxes : forall table N D bits rs, Forall good_row table -> enough_bits bits N -> sequence_sample bits table N D = Ok rs ->
  forall box q, net_ok table (bits N) (map fst box) = true -> (forall d k i, In (d, k, i) box -> d < D /\ i < 2 ^ k) ->
  let m := total (map snd (map fst box)) in (q + 1) * 2 ^ m <= N -> one_in_box rs (q * 2 ^ m) (2 ^ m) box.
Proof.
  intros table N D bits rs HT HB H box q HN Hbox m Hq.
  destruct (sequence_columns_V table N D bits rs HT HB H) as (H1 & H2 & H3 & Vs & HV & ->). unfold enough_bits in HB.
  assert (Hm : m <= bits N). { apply Nat.pow_le_mono_r_iff with 2; [lia|]. nia. }
  set (cols := map (fun dk => (Vs (fst dk), snd dk)) (map fst box)).
  assert (EC : mapM (fun dk => do V <- dimension_V table (bits N) (fst dk) ;; Ok (V, snd dk)) (map fst box) = Ok cols).
  { unfold cols. clear -Hbox HV. induction box as [|[[d k] i] box IH]; [reflexivity|]. cbn [map mapM fst snd].
    rewrite (proj2 (HV d (proj1 (Hbox d k i (or_introl eq_refl))))). cbn [bind]. rewrite IH; [reflexivity|]. intros. apply (Hbox d0 k0 i0). right. assumption. }
  unfold net_ok in HN. rewrite EC in HN.
  assert (SC : map snd cols = map snd (map fst box)) by (unfold cols; rewrite map_map; reflexivity).
  assert (FC : Forall (fun Vk => filled (fst Vk) (bits N) (bits N)) cols).
  { unfold cols. rewrite Forall_map, Forall_forall. intros [d k] I. apply in_map_iff in I. destruct I as ([[d' k'] i] & E & I). injection E as -> ->. cbn [fst].
    apply HV. apply (Hbox d k i I). }
  set (target := map (fun dki => (N.of_nat (snd dki), snd (fst dki))) box).
  assert (Kle : forall d k i, In (d, k, i) box -> k <= 31).
  { intros d k i I. assert (k <= m); [|lia]. apply total_In. apply in_map_iff. exists (d, k). split; [reflexivity|]. apply in_map_iff. exists (d, k, i). split; [reflexivity|assumption]. }
  assert (TB : forall j, j < N -> (box_of cols (fun V => point V j) = target <-> in_box (map (fun c => to_unit (point (Vs c) j)) (seq 0 D)) box)).
  { intros j Hj. unfold box_of, cols, target, in_box. rewrite !map_map. split.
    - intros E d k i I. assert (E' : top k (point (Vs d) j) = N.of_nat i).
      { assert (X : forall dki, In dki box -> (top (snd (fst dki)) (point (Vs (fst (fst dki))) j), snd (fst dki)) = (N.of_nat (snd dki), snd (fst dki))).
        { revert E. generalize box. clear. induction box as [|x box IH]; intros E dki []; cbn in E; injection E; intros; subst; auto. congruence. }
        specialize (X (d, k, i) I). cbn in X. congruence. }
      exists (to_unit (point (Vs d) j)). split.
      + rewrite nth_error_map, nth_error_seq. destruct (Hbox d k i I). destruct (Nat.ltb_spec d D); [reflexivity|lia].
      + apply stratum_iff; [apply (Kle d k i I)|exact E'].
    - intros B. apply map_ext_in. intros [[d k] i] I. cbn [fst snd]. f_equal. destruct (B d k i I) as (x & Ex & Hx).
      rewrite nth_error_map, nth_error_seq in Ex. destruct (Hbox d k i I). destruct (Nat.ltb_spec d D); [|lia]. injection Ex as <-.
      apply stratum_iff in Hx; [exact Hx|apply (Kle d k i I)]. }
  assert (RW : forall j, j < N -> nth_error (tab N D (fun r c => to_unit (point (Vs c) r))) j = Some (map (fun c => to_unit (point (Vs c) j)) (seq 0 D))).
  { intros j Hj. unfold tab. rewrite nth_error_map_seq, (proj2 (Nat.ltb_lt _ _) Hj). reflexivity. }
  destruct (block_netted cols (bits N) m ltac:(lia) ltac:(rewrite SC; reflexivity) Hm FC HN q target ltac:(lia)) as (j & Hj & Ej & Uj).
  { unfold target. rewrite SC, !map_map. reflexivity. }
  { unfold target. rewrite Forall_map, Forall_forall. intros [[d k] i] I. cbn [fst snd]. destruct (Hbox d k i I). rewrite <- pow_N_nat. lia. }
  assert (J : (q + 1) * 2 ^ m = q * 2 ^ m + 2 ^ m) by lia.
  exists j. split; [lia|]. split.
  - exists (map (fun c => to_unit (point (Vs c) j)) (seq 0 D)). split; [apply RW; lia|]. apply TB; [lia|assumption].
  - intros s' row Hs' Er Hb. rewrite RW in Er by lia. injection Er as <-. apply Uj; [lia|]. apply TB; [lia|assumption].
Qed.

(** ** The shipped table *)
Definition plane_ok (L : nat) : bool := forallb (fun k1 => forallb (fun k2 => net_ok directions L [(0, k1); (1, k2)]) (seq 0 (S L - k1))) (seq 0 (S L)).
Lemma planes : forallb plane_ok (seq 0 32) = true.
Proof. vm_compute. reflexivity. Qed.
Definition orthant_ok (L : nat) : bool := forallb (fun E => net_ok directions L (map (fun d => (d, 1)) (seq 0 E))) (seq 0 (S L)).
Lemma orthants : forallb orthant_ok (seq 0 32) = true.
Proof. vm_compute. reflexivity. Qed.
