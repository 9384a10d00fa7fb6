(** C38: the order of the segments. *)
From Coq Require Import Permutation Sorted.
From Verif Require Import Base Sort_Model Sort_Spec Sort_Proofs.

(** SortSegments ends (within n^2 + 1 rounds) and yields the stable sorting of the list. *)
Theorem C38_sorted : forall A (gt : A -> A -> bool), weak_order gt -> forall l, exists l', SortSegments gt l = Some l' /\ stably_sorted gt l l'.
Proof. intros A gt W. exact (sort_ok gt W). Qed.
Print Assumptions C38_sorted.
(** ... there is only one: the order is determined by the keys and the order of creation. *)
Theorem C38_unique : forall A (gt : A -> A -> bool), weak_order gt -> forall l l', stably_sorted gt l l' -> SortSegments gt l = Some l'.
Proof.
  intros A gt W l l' H. destruct (sort_ok gt W l) as (m & E & M). rewrite E. f_equal. apply (stable_unique A gt W l m l' M H).
Qed.
Print Assumptions C38_unique.
(** The three orders in use are weak orders: file offset, name, lname index with name. *)
Theorem C38_orders : forall B (key : B -> Z) (name : B -> list Z) (lname : B -> Z * list Z),
  weak_order (fun a b => key a >? key b) /\ weak_order (fun a b => strcmp_gt (name a) (name b)) /\ weak_order (fun a b => lname_gt (lname a) (lname b)).
Proof.
  intros B key name lname. split; [apply (weak_map _ _ key _ gtb_weak)|]. split; [apply (weak_map _ _ name _ strcmp_weak)|apply (weak_map _ _ lname _ lname_weak)].
Qed.
Print Assumptions C38_orders.
(** ... [strcmp_gt] is the lexicographic order of the bytes: the first difference decides. *)
Theorem C38_strcmp : forall a b, strcmp_gt a b = true <->
  exists p, (exists x u y v, a = p ++ x :: u /\ b = p ++ y :: v /\ y < x) \/ (exists x u, a = p ++ x :: u /\ b = p).
Proof.
  induction a as [|x a IH]; intros b.
  - cbn. split; [discriminate|]. intros ([|? ?] & [(? & ? & ? & ? & E & _)|(? & ? & E & _)]); discriminate E.
  - destruct b as [|y b].
    + split; [|reflexivity]. intros _. exists []. right. exists x, a. auto.
    + cbn [strcmp_gt]. rewrite orb_true_iff, andb_true_iff, Z.eqb_eq, IH. split.
      * intros [G|[-> (p & [(x' & u & y' & v & -> & -> & L)|(x' & u & -> & ->)])]].
        -- exists []. left. exists x, a, y, b. rewrite Z.gtb_lt in G. auto.
        -- exists (y :: p). left. exists x', u, y', v. auto.
        -- exists (y :: p). right. exists x', u. auto.
      * intros ([|z p] & [(x' & u & y' & v & E1 & E2 & L)|(x' & u & E1 & E2)]); try discriminate; cbn in E1, E2.
        -- injection E1 as -> ->. injection E2 as -> ->. left. rewrite Z.gtb_lt. exact L.
        -- injection E1 as -> ->. injection E2 as -> ->. right. split; [reflexivity|]. exists p. left. exists x', u, y', v. auto.
        -- injection E1 as -> ->. injection E2 as -> ->. right. split; [reflexivity|]. exists p. right. exists x', u. auto.
Qed.
Print Assumptions C38_strcmp.
(** one round isn't enough; equal keys keep their order *)
Example C38_example :
  round Z.gtb [3; 2; 1] = ([2; 3; 1], true) /\ SortSegments Z.gtb [3; 2; 1] = Some [1; 2; 3] /\
  SortSegments (fun a b => fst a >? fst b) [(2, 10); (1, 11); (2, 12); (1, 13)] = Some [(1, 11); (1, 13); (2, 10); (2, 12)] /\
  SortSegments strcmp_gt [[95; 84]; [65; 66; 67]; [65; 66]] = Some [[65; 66]; [65; 66; 67]; [95; 84]].
Proof. vm_compute. auto. Qed.
