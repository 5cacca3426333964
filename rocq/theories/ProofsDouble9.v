(** * Six outputs of 0.1. *)
From Coq Require Import Reals String List Arith ZArith Bool Lia Lra Psatz Permutation.
From Flocq Require Import Core.
From Verif Require Import Base ModelDouble ModelDouble3 ProofsDouble ProofsDouble8 ProofsLevels2.
Import ListNotations.
Local Open Scope R_scope.

Lemma add_by : forall a b c d p q, (0 < b)%Z -> (0 < d)%Z -> rnd ((a * d + c * b)%Z, (b * d)%Z) = Some (p, q) -> fl (IZR a / IZR b + IZR c / IZR d) = IZR p / IZR q.
Proof.
  intros a b c d p q B D H. apply rnd_spec in H. destruct H as (_ & _ & <-). f_equal. rewrite plus_IZR, !mult_IZR.
  apply IZR_lt in B. apply IZR_lt in D. field. lra.
Qed.

Lemma tenth_value : tenth = IZR 7205759403792794 / IZR 72057594037927936.
Proof. unfold tenth. apply (proj2 (proj2 (rnd_spec 1 10 7205759403792794 72057594037927936 ltac:(vm_compute; reflexivity)))). Qed.

Lemma six_mean : exists s, sums_to tenths s /\ fl (s / INR (length tenths)) = IZR 7205759403792793 / IZR 72057594037927936.
Proof.
  exists (sum_left tenth (repeat tenth 5)). split. { apply (sum_left_ok (repeat tenth 5) tenth [tenth]). constructor. }
  assert (E : sum_left tenth (repeat tenth 5) = IZR 5404319552844595 / IZR 9007199254740992).
  { unfold sum_left. cbn [repeat fold_left]. rewrite tenth_value.
    rewrite (add_by 7205759403792794 72057594037927936 7205759403792794 72057594037927936 7205759403792794 36028797018963968) by (reflexivity || (vm_compute; reflexivity)).
    rewrite (add_by 7205759403792794 36028797018963968 7205759403792794 72057594037927936 5404319552844596 18014398509481984) by (reflexivity || (vm_compute; reflexivity)).
    rewrite (add_by 5404319552844596 18014398509481984 7205759403792794 72057594037927936 7205759403792794 18014398509481984) by (reflexivity || (vm_compute; reflexivity)).
    rewrite (add_by 7205759403792794 18014398509481984 7205759403792794 72057594037927936 4503599627370496 9007199254740992) by (reflexivity || (vm_compute; reflexivity)).
    apply add_by; reflexivity || (vm_compute; reflexivity). }
  rewrite E. replace (INR (length tenths)) with 6 by (simpl; lra).
  replace (IZR 5404319552844595 / IZR 9007199254740992 / 6) with (IZR 5404319552844595 / IZR (6 * 9007199254740992)) by (rewrite mult_IZR; field).
  apply (proj2 (proj2 (rnd_spec 5404319552844595 (6 * 9007199254740992) 7205759403792793 72057594037927936 ltac:(vm_compute; reflexivity)))).
Qed.

Lemma six_mean_differs : exists mu, np_mean tenths mu /\ double mu /\ mu <> tenth.
Proof.
  destruct six_mean as (s & S & E). exists (fl (s / INR (length tenths))). split; [exists s; auto|]. split; [apply double_fl|].
  rewrite E, tenth_value. lra.
Qed.

Lemma sums_some : forall x l, exists s, sums_to (x :: l) s.
Proof. intros x l. exists (sum_left x l). apply (sum_left_ok l x [x]). constructor. Qed.
Lemma std_some : forall mu x l, exists sigma, np_std mu (x :: l) sigma.
Proof.
  intros mu x l. destruct (sums_some (fl (fl (x - mu) * fl (x - mu))) (map (fun y => fl (fl (y - mu) * fl (y - mu))) l)) as (s & S). eexists. exists s. split; [exact S|reflexivity].
Qed.
