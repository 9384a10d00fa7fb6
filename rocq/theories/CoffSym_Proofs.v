(** C15, C16: the symbol table as it is read. *)
From Verif Require Import Base Coff_Model Coff_Spec CoffStr_Proofs Data_Proofs.
From Coq Require Import Lia.

Definition name_bytes (nm : list Z + Z) : list Z := match nm with inl n => firstn 8 (n ++ repeat 0 8) | inr strpos => le_bytes 4 0 ++ le_bytes 4 strpos end.
Lemma name_bytes_length nm : length (name_bytes nm) = 8%nat.
Proof. destruct nm as [n|o]; cbn [name_bytes]. - rewrite firstn_length, app_length, repeat_length. lia. - reflexivity. Qed.
Lemma symbol_length nm v sec ty cl aux : length (coff_write_symbol nm v sec ty cl aux) = 18%nat.
Proof. unfold coff_write_symbol. fold (name_bytes nm). rewrite !app_length, name_bytes_length, !le_bytes_length. reflexivity. Qed.

Definition mk_entry name v sec ty cl aux : entry :=
  {| e_name := name; e_value := v mod 2 ^ 32; e_section := swrap 16 (sec mod 2 ^ 16); e_type := ty mod 2 ^ 16; e_class := cl mod 2 ^ 8; e_aux := aux |}.
Inductive parsed (L : longnames) : Z -> list (list Z) -> table -> Prop :=
| p_nil i : parsed L i [] []
| p_cons i nm name v sec ty cl aux recs T :
    named L nm name -> Forall (fun a => length a = 18%nat) aux -> zlen aux < 256 ->
    parsed L (i + 1 + zlen aux) recs T ->
    parsed L i (coff_write_symbol nm v sec ty cl (zlen aux) :: aux ++ recs) ((i, mk_entry name v sec ty cl aux) :: T).
Lemma parsed_app L i r1 T1 r2 T2 j : parsed L i r1 T1 -> parsed L j r2 T2 -> j = i + zlen r1 -> parsed L i (r1 ++ r2) (T1 ++ T2).
Proof.
  intros H. revert j. induction H as [i|i nm name v sec ty cl aux recs T N A B H IH]; intros j H2 J.
  - unfold zlen in J. cbn in J. rewrite Z.add_0_r in J. subst. assumption.
  - cbn [app]. rewrite <- app_assoc. constructor; [assumption..|]. apply (IH j H2). rewrite J. unfold zlen. cbn [length]. rewrite app_length. lia.
Qed.
Lemma parsed_length L i r T : parsed L i r T -> Forall (fun a => length a = 18%nat) r.
Proof. induction 1; [constructor|]. constructor; [apply symbol_length|]. now apply Forall_app. Qed.
Lemma concat_length r : Forall (fun a : list Z => length a = 18%nat) r -> zlen (concat r) = 18 * zlen r.
Proof. induction 1 as [|a r A _ IH]; [reflexivity|]. cbn [concat]. rewrite zlen_app, IH, zlen_cons. unfold zlen at 1. rewrite A. lia. Qed.

Lemma slice0 a b n : n = zlen a -> slice 0 n (a ++ b) = Some a.
Proof. intros ->. exact (slice_app [] a b 0 (zlen a) eq_refl eq_refl). Qed.
Lemma records_app : forall rs size l, Forall (fun a => zlen a = size) rs -> 0 <= size -> records (length rs) size (concat rs ++ l) = Some (rs, l).
Proof.
  induction rs as [|r rs IH]; intros size l H P; [reflexivity|]. inversion H; subst. cbn [length records concat]. rewrite <- app_assoc.
  rewrite slice0 by reflexivity. replace (Z.to_nat (zlen r)) with (length r) by (unfold zlen; lia). rewrite skipn_app, skipn_all, Nat.sub_diag. cbn [skipn app]. now rewrite IH.
Qed.
Lemma field_at a b c i n : length a = i -> length b = n -> field i n (a ++ b ++ c) = le_val b.
Proof. intros <- <-. unfold field. rewrite skipn_app, skipn_all, Nat.sub_diag. cbn [skipn app]. rewrite firstn_app, Nat.sub_diag, firstn_all. cbn [firstn]. now rewrite app_nil_r. Qed.
Lemma field_le a n v c i : length a = i -> field i n (a ++ le_bytes n v ++ c) = v mod 2 ^ (8 * Z.of_nat n).
Proof. intros A. rewrite field_at; [apply le_val_le_bytes|assumption|apply le_bytes_length]. Qed.
Lemma symbol_fields nm v sec ty cl aux :
  let r := coff_write_symbol nm v sec ty cl aux in
  firstn 8 r = name_bytes nm /\ field 8 4 r = v mod 2 ^ 32 /\ field 12 2 r = sec mod 2 ^ 16 /\ field 14 2 r = ty mod 2 ^ 16 /\ field 16 1 r = cl mod 2 ^ 8 /\ field 17 1 r = aux mod 2 ^ 8.
Proof.
  cbn zeta. unfold coff_write_symbol. fold (name_bytes nm). pose proof (name_bytes_length nm) as N. set (b := name_bytes nm) in *.
  split. { rewrite firstn_app, N, Nat.sub_diag. rewrite firstn_all2 by lia. apply app_nil_r. }
  split. { now apply field_le. }
  split. { rewrite (app_assoc b). apply field_le. rewrite app_length, N, le_bytes_length. reflexivity. }
  split. { rewrite (app_assoc b), (app_assoc (b ++ _)). apply field_le. rewrite !app_length, N, !le_bytes_length. reflexivity. }
  split. { rewrite (app_assoc b), (app_assoc (b ++ _)), (app_assoc ((b ++ _) ++ _)). apply field_le. rewrite !app_length, N, !le_bytes_length. reflexivity. }
  rewrite (app_assoc b), (app_assoc (b ++ _)), (app_assoc ((b ++ _) ++ _)), (app_assoc (((b ++ _) ++ _) ++ _)). rewrite <- (app_nil_r (le_bytes 1 aux)).
  apply field_le. rewrite !app_length, N, !le_bytes_length. reflexivity.
Qed.
Lemma rd_symbols_cons k strs l i : l <> [] -> rd_symbols (S k) strs l i =
  match slice 0 18 l with
  | Some r => match rd_name strs (firstn 8 r) with
     | Some name => match records (Z.to_nat (field 17 1 r)) 18 (skipn 18 l) with
        | Some (aux, l') => match rd_symbols k strs l' (i + 1 + field 17 1 r) with
            | Some rest => Some ((i, {| e_name := name; e_value := field 8 4 r; e_section := swrap 16 (field 12 2 r); e_type := field 14 2 r; e_class := field 16 1 r; e_aux := aux |}) :: rest)
            | None => None end
        | None => None end
     | None => None end
  | None => None end.
Proof. destruct l; [congruence|]. reflexivity. Qed.
Lemma parsed_read L i recs T : parsed L i recs T -> forall fuel, (length recs <= fuel)%nat -> rd_symbols fuel (string_table L) (concat recs) i = Some T.
Proof.
  induction 1 as [i|i nm name v sec ty cl aux recs T N A B H IH]; intros fuel F. { destruct fuel; reflexivity. }
  destruct fuel as [|fuel]. { cbn in F. lia. }
  set (r := coff_write_symbol nm v sec ty cl (zlen aux)). assert (Lr : length r = 18%nat) by apply symbol_length.
  destruct (symbol_fields nm v sec ty cl (zlen aux)) as (F1 & F2 & F3 & F4 & F5 & F6). fold r in F1, F2, F3, F4, F5, F6.
  cbn [concat]. rewrite concat_app. rewrite rd_symbols_cons.
  2: { intros Q. apply (f_equal (@length Z)) in Q. rewrite app_length, Lr in Q. cbn in Q. lia. }
  rewrite slice0 by (unfold zlen; now rewrite Lr). rewrite F1, F2, F3, F4, F5, F6. unfold name_bytes. rewrite (name_field L nm name N).
  rewrite (Z.mod_small (zlen aux)) by (pose proof (zlen_nonneg aux); change (2 ^ 8) with 256; lia).
  replace (skipn 18 (r ++ concat aux ++ concat recs)) with (concat aux ++ concat recs).
  2: { rewrite <- Lr, skipn_app, skipn_all, Nat.sub_diag. reflexivity. }
  unfold zlen at 1. rewrite Nat2Z.id. rewrite records_app; [|eapply Forall_impl; [|exact A]; intros a Q; unfold zlen; now rewrite Q|lia].
  rewrite IH; [reflexivity|]. cbn [length] in F. rewrite app_length in F. lia.
Qed.

(** * positions *)
Definition xsize (x : xentry) : Z := 1 + zlen (x_aux x).
Definition xsizes (xs : list xentry) : Z := fold_right (fun x n => xsize x + n) 0 xs.
Lemma xsizes_app a b : xsizes (a ++ b) = xsizes a + xsizes b.
Proof. induction a as [|x a IH]; cbn [xsizes fold_right app]; [reflexivity|]. fold (xsizes (a ++ b)). fold (xsizes a). lia. Qed.
Lemma xsizes_nonneg a : 0 <= xsizes a.
Proof. induction a as [|x a IH]; cbn [xsizes fold_right]; [lia|]. fold (xsizes a). unfold xsize. pose proof (zlen_nonneg (x_aux x)). lia. Qed.
(** the parts of an entry that don't depend on the rest of the table *)
Definition basic (x : xentry) (e : entry) : Prop :=
  e_name e = x_name x /\ match x_value x with Some v => e_value e = v | None => True end /\ e_section e = x_section x /\ e_type e = x_type x /\ e_class e = x_class x /\ length (e_aux e) = length (x_aux x).
Inductive matches : Z -> list xentry -> table -> Prop :=
| m_nil i : matches i [] []
| m_cons i x e xs T : basic x e -> matches (i + xsize x) xs T -> matches i (x :: xs) ((i, e) :: T).
Lemma matches_app i a T j b U : matches i a T -> matches j b U -> j = i + xsizes a -> matches i (a ++ b) (T ++ U).
Proof.
  intros H. revert j. induction H as [i|i x e xs T B H IH]; intros j M J; cbn [app]. { cbn in J. rewrite Z.add_0_r in J. now subst. }
  constructor; [assumption|]. apply (IH j M). cbn [xsizes fold_right] in J. fold (xsizes xs) in J. lia.
Qed.
Lemma matches_at i a x b T : matches i (a ++ x :: b) T -> exists e, In (i + xsizes a, e) T /\ basic x e.
Proof.
  revert i T. induction a as [|y a IH]; intros i T H; cbn [app] in H; inversion H as [|? ? e ? U B M]; subst.
  - exists e. split; [|assumption]. cbn. left. now rewrite Z.add_0_r.
  - apply IH in M as (e' & I' & B'). exists e'. split; [|assumption]. right. cbn [xsizes fold_right]. fold (xsizes a). now rewrite Z.add_assoc.
Qed.
Lemma matches_bound i xs T : matches i xs T -> forall j e, In (j, e) T -> i <= j < i + xsizes xs.
Proof.
  induction 1 as [i|i x e xs T B H IH]; intros j e' I'; [destruct I'|]. cbn [xsizes fold_right]. fold (xsizes xs). pose proof (xsizes_nonneg xs). unfold xsize in *. pose proof (zlen_nonneg (x_aux x)).
  destruct I' as [Q|I']. - injection Q as <- _. lia. - apply IH in I'. lia.
Qed.
