(** Reader side of the OMF name records (TIS OMF specification 1.1). *)
From Verif Require Import Base OmfRec_Model OmfRec_Spec.

(** length-prefixed name *)
Definition rd_name (l : list Z) : option (list Z * list Z) :=
  '(n, r) <- rd_byte l ;;
  if (Z.to_nat n <=? length r)%nat then Some (firstn (Z.to_nat n) r, skipn (Z.to_nat n) r) else None.

(** a list of items to the end of the data *)
Fixpoint rd_many {A} (rd : list Z -> option (A * list Z)) (fuel : nat) (l : list Z) : option (list A) :=
  match l with
  | [] => Some []
  | _ => match fuel with
         | O => None
         | S k => '(a, r) <- rd l ;; 'al <- rd_many rd k r ;; Some (a :: al)
         end
  end.

Definition rd_lnames (l : list Z) : option (list (list Z)) := rd_many rd_name (length l) l.

(** EXTDEF item: name, type index *)
Definition rd_ext1 (l : list Z) : option (list Z * list Z) :=
  '(n, l) <- rd_name l ;; '(_, l) <- rd_index l ;; Some (n, l).

(** COMDEF number: up to 80h one byte; 81h + word; 84h + 3 bytes; 88h + dword *)
Definition rd_comnum (l : list Z) : option (Z * list Z) :=
  '(b, l) <- rd_byte l ;;
  if b <=? 128 then Some (b, l)
  else if b =? 0x81 then rd_word l
  else if b =? 0x84 then
    match l with x :: y :: z :: r => Some (x + 256 * y + 65536 * z, r) | _ => None end
  else if b =? 0x88 then rd_dword l
  else None.

(** a communal variable: NEAR with its size, or FAR with number of elements
    and element size *)
Inductive comm := Near (size : Z) | Far (elements elsize : Z).
Definition rd_com1 (l : list Z) : option ((list Z * comm) * list Z) :=
  '(n, l) <- rd_name l ;; '(_, l) <- rd_index l ;; '(t, l) <- rd_byte l ;;
  if t =? 0x62 then '(s, l) <- rd_comnum l ;; Some ((n, Near s), l)
  else if t =? 0x61 then
    '(e, l) <- rd_comnum l ;; '(s, l) <- rd_comnum l ;; Some ((n, Far e s), l)
  else None.

(** public: name, offset, type index *)
Definition rd_pub1 (is32 : bool) (l : list Z) : option ((list Z * Z) * list Z) :=
  '(n, l) <- rd_name l ;; '(o, l) <- rd_ofs is32 l ;; '(_, l) <- rd_index l ;; Some ((n, o), l).

(** ** What a linker collects from the records of a module, in file order *)
Fixpoint concat_opt {A B} (f : A -> option (list B)) (l : list A) : option (list B) :=
  match l with
  | [] => Some []
  | a :: r => 'x <- f a ;; 'y <- concat_opt f r ;; Some (x ++ y)
  end.

(** the list of names (index 1 is its first element) *)
Definition lname_table (vs : list view) : option (list (list Z)) :=
  concat_opt (fun v => match v with
                       | V_plain 0x96 _ d => rd_lnames d
                       | _ => Some [] end) vs.

(** externals and communals share one numbering *)
Inductive external := Ext (name : list Z) | Com (name : list Z) (c : comm).
Definition external_table (vs : list view) : option (list external) :=
  concat_opt (fun v => match v with
                       | V_plain 0x8c _ d => 'l <- rd_many rd_ext1 (length d) d ;; Some (map Ext l)
                       | V_plain 0xb0 _ d => 'l <- rd_many rd_com1 (length d) d ;;
                                             Some (map (fun p => Com (fst p) (snd p)) l)
                       | _ => Some [] end) vs.

(** weak external comments: (weak index, default index) *)
Definition weak_table (vs : list view) : option (list (Z * Z)) :=
  concat_opt (fun v => match v with
                       | V_coment _ 0xa8 d =>
                           rd_many (fun l => '(a, l) <- rd_index l ;; '(b, l) <- rd_index l ;; Some ((a, b), l))
                                   (length d) d
                       | _ => Some [] end) vs.

(** publics: (group, segment, frame, name, offset) *)
Definition public_table (vs : list view) : option (list (base_info * list Z * Z)) :=
  concat_opt (fun v => match v with
                       | V_base 0x90 is32 b d =>
                           'l <- rd_many (rd_pub1 is32) (length d) d ;;
                           Some (map (fun p => (b, fst p, snd p)) l)
                       | _ => Some [] end) vs.
