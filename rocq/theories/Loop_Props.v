(** C50: loops run their lines as often as they say.

    What is compared with what: the meaning of loops ([runs], [whiles], [spells], [listing])
    from Loop_Spec and the loops of LoopDirective ([REPEAT], [WHILE], [FORC], [FOR]) from
    Loop_Model. *)
From Coq Require Import ZArith List Bool Lia.
From Verif Require Import Base Loop_Model Loop_Spec Loop_Proofs.
Import ListNotations.
Open Scope Z_scope.

(** REPEAT runs the lines as often as its argument says (not at all if it is
    negative), or up to EXITM; this is the only result the meaning allows. *)
Theorem C50_repeat : forall A (body : A -> list Z -> Z -> A * bool) n s t, - 2 ^ 31 <= n < 2 ^ 31 ->
  (runs body (repeat [] (Z.to_nat n)) 0 s t <-> REPEAT body n s = t).
Proof.
  intros A body n s t H. pose proof (repeat_ok body n s H) as R. split; [|intros <-; exact R].
  intro R'. apply (runs_fun body _ _ _ _ _ R R').
Qed.
Print Assumptions C50_repeat.

(** WHILE runs the lines as long as the condition, evaluated anew after each
    iteration, is not zero; it ends if and only if this ends. *)
Theorem C50_while : forall A (body : A -> list Z -> Z -> A * bool) eval s t, (forall s c, eval s = Some c -> - 2 ^ 31 <= c < 2 ^ 31) ->
  (forall k, Z.of_nat k < 2 ^ 31 -> WHILE body eval k s = Some t -> exists n, (n <= k)%nat /\ whiles body eval n (eval s) 0 s t) /\
  (forall n k, Z.of_nat n < 2 ^ 31 -> (n < k)%nat -> whiles body eval n (eval s) 0 s t -> WHILE body eval k s = Some t).
Proof.
  intros A body eval s t EV. unfold WHILE. split.
  - intros k B H. apply (while_whiles body eval EV k); [lia|lia|intros x X; apply (EV s x X)|exact H].
  - intros n k B K H. apply (whiles_while body eval EV n); [exact H|lia|lia|intros x X; apply (EV s x X)|exact K].
Qed.
Print Assumptions C50_while.

(** FORC runs the lines once for each character that its text stands for, in
    order, with exactly this character as argument, blanks included. *)
Theorem C50_forc : forall A (body : A -> list Z -> Z -> A * bool) l cs s t, spells l cs -> ~ In 0 l -> zlen cs < 2 ^ 31 ->
  (runs body (map (fun c => [c]) cs) 0 s t <-> FORC body l s = Ok t).
Proof.
  intros A body l cs s t H N B.
  assert (N' : ~ In 0 cs).
  { intro I. apply N. clear - H I. induction H as [|c l cs M H IH|c l cs H IH]; [exact I| |]; (destruct I as [->|I]; [|specialize (IH I)]); cbn; tauto. }
  destruct (forc_ok body l cs H N' 0 s) as (t' & F & R); [lia|lia|]. unfold FORC. rewrite F. split.
  - intro R'. f_equal. apply (runs_fun body _ _ _ _ _ R R').
  - intro E. injection E as <-. exact R.
Qed.
Print Assumptions C50_forc.

(** Without <> the text ends at the first blank. *)
Theorem C50_forc_text : forall l, exists r, l = forc_text l ++ r /\ (forall c, In c (forc_text l) -> ~ In c [9; 10; 11; 12; 13; 32]) /\
  match r with [] => True | c :: _ => In c [9; 10; 11; 12; 13; 32] end.
Proof. exact text_ok. Qed.
Print Assumptions C50_forc_text.

(** FOR runs the lines once for each argument between the commas, in order; an
    argument that is left out has the default of the parameter. *)
Theorem C50_for : forall A (body : A -> list Z -> Z -> A * bool) req dflt args l white s t,
  listing args l -> last args [] <> [] -> (req = true -> ~ In [] args) -> zlen args < 2 ^ 31 ->
  (runs body (map (meant dflt) args) 0 s t <-> FOR body req dflt l white s = Ok t).
Proof.
  intros A body req dflt args l white s t H N R B. destruct (for_ok body req dflt args l white s H N R B) as (t' & F & T). rewrite F. split.
  - intro T'. f_equal. apply (runs_fun body _ _ _ _ _ T T').
  - intro E. injection E as <-. exact T.
Qed.
Print Assumptions C50_for.

(** With a comma at the end there is an empty argument behind it exactly if white
    space follows. *)
Theorem C50_for_comma : forall A (body : A -> list Z -> Z -> A * bool) req dflt args l s t,
  listing args l -> (req = true -> ~ In [] args) -> zlen args + 1 < 2 ^ 31 ->
  (runs body (map (meant dflt) args) 0 s t <-> FOR body req dflt (l ++ [Comma]) false s = Ok t) /\
  (runs body (map (meant dflt) args ++ [[]]) 0 s t <-> FOR body req dflt (l ++ [Comma]) true s = Ok t).
Proof.
  intros A body req dflt args l s t H R B. destruct (for_comma body req dflt args l s H R B) as [(t1 & F1 & T1) (t2 & F2 & T2)]. rewrite F1, F2.
  split; (split; [intro T'; f_equal; eapply runs_fun; eassumption|intro E; injection E as <-; assumption]).
Qed.
Print Assumptions C50_for_comma.

(** If the parameter is required and an argument is left out there is an error,
    unless EXITM comes first. *)
Theorem C50_for_required : forall A (body : A -> list Z -> Z -> A * bool) dflt args l white s, (forall s a v, snd (body s a v) = false) ->
  listing args l -> last args [] <> [] -> zlen args < 2 ^ 31 -> (FOR body true dflt l white s = Err <-> In [] args).
Proof.
  intros A body dflt args l white s X H N B. split.
  - intro E. destruct (in_dec (list_eq_dec (list_eq_dec Z.eq_dec)) [] args) as [I|I]; [exact I|exfalso].
    destruct (for_ok body true dflt args l white s H N (fun _ => I) B) as (t & F & _). congruence.
  - intro I. unfold FOR. pose proof (listing_last _ _ H N) as L. destruct (last l (Item [])); [contradiction|].
    apply (for_err A body dflt X args l H N I). lia.
Qed.
Print Assumptions C50_for_required.

(** ** Examples *)

(** The state is the list of arguments and numbers seen so far; the lines have
    an EXITM for 'x'. *)
Definition note (s : list (list Z * Z)) (a : list Z) (v : Z) : list (list Z * Z) * bool :=
  (s ++ [(a, v)], match a with [120] => true | _ => false end).

(** The same without EXITM. *)
Definition keep (s : list (list Z * Z)) (a : list Z) (v : Z) : list (list Z * Z) * bool := (s ++ [(a, v)], false).

Example repeat_example : REPEAT note 3 [] = [([], 0); ([], 1); ([], 2)] /\ REPEAT note (-1) [] = [].
Proof. vm_compute. split; reflexivity. Qed.

(** a, blank, !!, b *)
Example forc_spells : spells [97; 32; 33; 33; 98] [97; 32; 33; 98].
Proof. apply spells_plain; [lia|]. apply spells_plain; [lia|]. apply spells_bang. apply spells_plain; [lia|]. apply spells_nil. Qed.
Example forc_example : FORC note [97; 32; 33; 33; 98] [] = Ok [([97], 0); ([32], 1); ([33], 2); ([98], 3)] /\
  FORC note [97; 120; 98] [] = Ok [([97], 0); ([120], 1)].
Proof. vm_compute. split; reflexivity. Qed.

(** i = 3, WHILE i / i = i - 1 / ENDM *)
Definition down (s : Z) (a : list Z) (v : Z) : Z * bool := (Z.max 0 (s - 1), false).
Definition small (s : Z) : option Z := if (0 <=? s) && (s <? 1000) then Some s else None.
Example small_ok : forall s c, small s = Some c -> - 2 ^ 31 <= c < 2 ^ 31.
Proof. intros s c. unfold small. destruct (Z.leb_spec 0 s); [|discriminate]. destruct (Z.ltb_spec s 1000); [|discriminate]. cbn [andb]. intro E. injection E as <-. lia. Qed.
Example while_example : WHILE down small 5 3 = Some 0 /\ whiles down small 3 (small 3) 0 3 0.
Proof.
  split; [vm_compute; reflexivity|]. apply (whiles_step down small 2 3 0 3 2 0); [lia|reflexivity|].
  apply (whiles_step down small 1 2 1 2 1 0); [lia|reflexivity|]. apply (whiles_step down small 0 1 2 1 0 0); [lia|reflexivity|]. apply whiles_zero.
Qed.

(** a+b,,c with default d *)
Example for_listing : listing [[[97]; [43]; [98]]; []; [[99]]] [Item [97]; Item [43]; Item [98]; Comma; Comma; Item [99]].
Proof. apply (listing_more [[97]; [43]; [98]]). apply (listing_more []). apply (listing_one [[99]]). Qed.
Example for_example : FOR note false [100] [Item [97]; Item [43]; Item [98]; Comma; Comma; Item [99]] false [] = Ok [([97; 43; 98], 0); ([100], 1); ([99], 2)] /\
  FOR note true [] [Item [97]; Comma; Comma; Item [99]] false [] = Err /\
  FOR note false [] [Item [97]; Comma; Item [120]; Comma; Item [99]] false [] = Ok [([97], 0); ([120], 1)].
Proof. vm_compute. repeat split. Qed.

(** ** What fails *)

(** "WHILE runs its lines as long as the condition is not zero." Only the low 32
    bits of the condition are tested (loop.c 216, opnd.value), though constants
    have 64 bits and more: WHILE 100000000h does not run its lines at all. *)
Theorem C50_while_refuted : exists eval t n, eval 0 = Some (2 ^ 32) /\
  whiles (fun s _ _ => (s + 1, true)) eval n (eval 0) 0 0 t /\ WHILE (fun s _ _ => (s + 1, true)) eval 2 0 <> Some t.
Proof.
  exists (fun _ => Some (2 ^ 32)), 1, 1%nat. split; [reflexivity|]. split; [apply whiles_exit; [lia|reflexivity]|vm_compute; discriminate].
Qed.
Print Assumptions C50_while_refuted.

(** "REPEAT runs its lines as often as its argument says." Only the low 32 bits
    count, as a signed number (loop.c 204): REPEAT 100000001h runs them once and
    REPEAT 80000000h not at all, without an error. *)
Theorem C50_repeat_refuted : exists n m, ~ runs (fun s _ _ => (s + 1, false)) (repeat [] (Z.to_nat n)) 0 0 (REPEAT (fun s _ _ => (s + 1, false)) n 0) /\
  n = 2 ^ 32 + 1 /\ m = 2 ^ 31 /\ REPEAT (fun s _ _ => (s + 1, false)) n 0 = 1 /\ REPEAT (fun s _ _ => (s + 1, false)) m 0 = 0.
Proof.
  exists (2 ^ 32 + 1), (2 ^ 31). split; [|vm_compute; repeat split].
  assert (C : forall k v s t, runs (fun s _ _ => (s + 1, false)) (repeat [] k) v s t -> t = s + Z.of_nat k).
  { induction k as [|k IH]; intros v s t H; inversion H; subst; [lia|discriminate|]. match goal with E : (_, false) = (_, false) |- _ => injection E as <- end.
    match goal with R : runs _ _ _ _ t |- _ => apply IH in R end. lia. }
  intro H. apply C in H. rewrite Z2Nat.id in H by lia. vm_compute in H. discriminate.
Qed.
Print Assumptions C50_repeat_refuted.

(** "FORC passes each character of its text." If the text ends with a single '!'
    the 00 behind it is taken for the character (loop.c 237-243, expans.c 539-541):
    the lines run once more with an empty argument. *)
Theorem C50_forc_refuted : forall A (body : A -> list Z -> Z -> A * bool) s,
  FORC body [33] s = Ok (fst (body s [] 0)).
Proof. reflexivity. Qed.
Print Assumptions C50_forc_refuted.

(** "White space between the arguments of FOR makes no difference." FOR x,<a,> runs
    its lines once, FOR x,<a, > twice (loop.c 266-275); and the argument behind
    the last comma is empty, the default is not used and no error is given if it
    is required, unlike for an argument left out before. *)
Theorem C50_for_refuted : exists l, forall dflt,
  FOR keep false dflt l false [] = Ok [([97], 0)] /\ FOR keep false dflt l true [] = Ok [([97], 0); ([], 1)] /\
  FOR keep true dflt l true [] = Ok [([97], 0); ([], 1)] /\
  FOR keep false dflt (Comma :: l) false [] = Ok [(dflt, 0); ([97], 1)] /\ FOR keep true dflt (Comma :: l) false [] = Err.
Proof. exists [Item [97]; Comma]. intro dflt. repeat split. Qed.
Print Assumptions C50_for_refuted.
