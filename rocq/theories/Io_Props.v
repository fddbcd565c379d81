(* Claims C86 - C91: saving and loading arrays, raw bytes. *)
From Coq Require Import Ascii String.
From Verif Require Import Base Lists Arr_Spec Arr_Model Arr_Wf Arr_Proofs Wf_Check Copy_Model Copy_Proofs.
From Verif Require Import Date_Spec Date_Model Date_Str Promo_Spec Promo_Model Gu_Model Io_Spec Io_Model Io_Proofs Io_Read.
Local Open Scope nat_scope.
Local Open Scope list_scope.

(* an array of dtype k: a well-formed view over elements of k's size; lengths are usize,
   the whole is addressable *)
Definition is_array (k : kind) (buf : list bytes) (a : arr) : Prop :=
  wf buf a /\ a_item a = itemsize k /\ Forall (fun e => Z.of_nat (List.length e) = itemsize k) buf /\
  Forall (fun d => (Z.of_nat d < 2 ^ 64)%Z) (a_shape a) /\ (Z.of_nat (ndim a) < 2 ^ 27)%Z /\
  (Z.of_nat (size a) * itemsize k < 2 ^ 63)%Z.
(* column-major in memory and not row-major, like the transpose of a matrix *)
Definition only_fortran (a : arr) : bool := a_f a && negb (a_c a).
Definition same_array (buf' : list bytes) (a' : arr) (buf : list bytes) (a : arr) : Prop :=
  a_shape a' = a_shape a /\ forall idx, inb idx (a_shape a) -> get buf' a' idx = get buf a idx.

Lemma array_sized k buf a : is_array k buf a -> sized (Z.to_nat (a_item a)) buf.
Proof. intros (_ & -> & HS & _). eapply Forall_impl; [|exact HS]. cbn. intros e He. rewrite <- He. lia. Qed.
Lemma elems_nth (buf : list bytes) a vals idx : elems buf a = map Some vals -> inb idx (a_shape a) -> nth_error vals (rm_rank (a_shape a) idx) = get buf a idx.
Proof.
  intros E Hi. change rm_rank with rank. assert (N : nth_error (elems buf a) (rank (a_shape a) idx) = Some (get buf a idx)).
  { unfold elems. rewrite nth_error_map', nth_error_all_idx_rank by exact Hi. reflexivity. }
  rewrite E, nth_error_map' in N. destruct (nth_error vals _); cbn [option_map] in N; [|discriminate]. injection N as <-. reflexivity.
Qed.
Lemma res_ok_inj {A} (x y : A) : Ok x = Ok y -> x = y.
Proof. congruence. Qed.
(* what a save writes and what a load makes of it, for every layout *)
Lemma save_load k buf a r : is_array k buf a -> not_string k = true ->
  exists vals : list bytes, write_npy k buf a = Ok (preamble (header k (a_shape a) (only_fortran a)) ++ concat vals) /\
    elems buf a = map Some vals /\ List.length vals = size a /\ sized (Z.to_nat (itemsize k)) vals /\
    read_npy ((preamble (header k (a_shape a) (only_fortran a)) ++ concat vals) ++ r) =
      Ok (k, chunks (size a) (Z.to_nat (itemsize k)) (concat vals ++ r),
          mkArr 0 (a_shape a) (if only_fortran a then f_strides (a_shape a) (itemsize k) else c_strides (a_shape a) (itemsize k)) (itemsize k)
            (negb (only_fortran a)) (only_fortran a || Nat.leb (List.length (filter (fun d => Nat.ltb 1 d) (a_shape a))) 1)).
Proof.
  intros HA HK. pose proof (array_sized _ _ _ HA) as HS. destruct HA as (W & EI & _ & HF & HN & HB).
  destruct (tobytes_spec k buf a W HS) as (vals & ET & EE & HL & HV). rewrite EI in HV.
  exists vals. split; [unfold write_npy; rewrite ET; reflexivity|]. split; [exact EE|]. split; [exact HL|]. split; [exact HV|].
  rewrite <- app_assoc, read_whole; [|exact HF|apply header_short; assumption].
  rewrite read_back_id by exact HK. apply body_ok; [apply itemsize_pos; exact HK|exact HB|exact HV|exact HL].
Qed.

(* ---- C86: save then load gives the array back ---- *)
(* _partial: arrays that are column-major only, and string dtypes, are excluded (refuted below) *)
Theorem C86_roundtrip_partial : forall k buf a,
  is_array k buf a -> not_string k = true -> only_fortran a = false ->
  exists file buf' a', write_npy k buf a = Ok file /\ read_npy file = Ok (k, buf', a') /\ same_array buf' a' buf a.
Proof.
  intros k buf a HA HK HO. destruct (save_load k buf a [] HA HK) as (vals & EW & EE & HL & HV & ER).
  rewrite !app_nil_r in ER. eexists _, _, _. split; [exact EW|]. split; [exact ER|].
  rewrite HO. split; [reflexivity|]. intros idx Hi. cbn [negb orb].
  rewrite <- (elems_nth _ _ _ _ EE Hi). pose proof (chunks_get vals (a_shape a) (itemsize k) false idx [] (itemsize_pos k HK) HV HL Hi) as G.
  rewrite app_nil_r in G. exact G.
Qed.
(* a 2x3 slice of a larger matrix, with a stride *)
Definition i16 (z : Z) : bytes := [byte z; byte (z / 256)].
Example C86_roundtrip_nonvacuous :
  let buf := map (fun n => i16 (Z.of_nat n)) (seq 0 20) in
  let a := mkArr 6 [2; 3] [10%Z; 4%Z] 2 false false in
  is_array Int16 buf a /\ only_fortran a = false /\
  map (get buf a) (all_idx [2; 3]) = map (fun z => Some (i16 z)) [3; 5; 7; 8; 10; 12]%Z /\
  exists file buf' a', write_npy Int16 buf a = Ok file /\ List.length file = 140 /\ read_npy file = Ok (Int16, buf', a') /\
    map (get buf' a') (all_idx [2; 3]) = map (fun z => Some (i16 z)) [3; 5; 7; 8; 10; 12]%Z.
Proof.
  cbv zeta. split; [|split; [reflexivity|split; [vm_compute; reflexivity|]]].
  - split; [apply wf_check_sound; vm_compute; reflexivity|]. split; [reflexivity|]. split; [|split; [repeat constructor|split; reflexivity]].
    apply Forall_forall. intros e He. apply in_map_iff in He as (n & <- & _). reflexivity.
  - eexists _, _, _. split; [vm_compute; reflexivity|]. split; [vm_compute; reflexivity|]. split; vm_compute; reflexivity.
Qed.

(* saving what was loaded writes the same file *)
Theorem C86_stable_partial : forall k buf a file k' buf' a',
  is_array k buf a -> not_string k = true -> only_fortran a = false ->
  write_npy k buf a = Ok file -> read_npy file = Ok (k', buf', a') -> write_npy k' buf' a' = Ok file.
Proof.
  intros k buf a file k' buf' a' HA HK HO EW ER. destruct (save_load k buf a [] HA HK) as (vals & EW' & EE & HL & HV & ER').
  pose proof (res_ok_inj _ _ (eq_trans (eq_sym EW) EW')) as EF. subst file. clear EW. rewrite !app_nil_r in ER'. pose proof (eq_trans (eq_sym ER') ER) as EQ. clear ER ER'. injection EQ as <- <- <-. rewrite HO.
  pose proof (itemsize_pos k HK) as HI. unfold write_npy, tobytes. cbn [negb orb a_c a_f a_off a_shape a_item].
  rewrite andb_false_r. unfold size. cbn [a_shape].
  assert (EC : chunks (prod (a_shape a)) (Z.to_nat (itemsize k)) (concat vals) = vals).
  { unfold size in HL. rewrite <- HL. pose proof (chunks_concat _ vals [] HV) as G. rewrite app_nil_r in G. exact G. }
  rewrite EC. unfold raw. destruct (Z.eqb_spec (Z.of_nat (prod (a_shape a)) * itemsize k) 0) as [H0|H0].
  - assert (E0 : prod (a_shape a) = 0) by nia. unfold size in HL. rewrite E0 in HL. destruct vals; [reflexivity|discriminate].
  - pose proof (concat_len _ _ HV) as HC. unfold size in HL. rewrite HL in HC.
    match goal with |- context [List.length ?x] => replace (List.length x) with (Z.to_nat (itemsize k) * prod (a_shape a)) by (symmetry; exact HC) end.
    cbn [Z.leb Z.compare andb].
    destruct (Z.leb_spec (0 + Z.of_nat (prod (a_shape a)) * itemsize k) (Z.of_nat (Z.to_nat (itemsize k) * prod (a_shape a)))); [|nia].
    cbn [bind Z.to_nat skipn]. rewrite firstn_all2; [reflexivity|].
    match goal with |- List.length ?x <= _ => replace (List.length x) with (Z.to_nat (itemsize k) * prod (a_shape a)) by (symmetry; exact HC) end. nia.
Qed.

(* a column-major array comes back with the element at a column-major position replaced by
   the one at that row-major position *)
Theorem C86_fortran_scrambled : forall k buf a,
  is_array k buf a -> not_string k = true -> only_fortran a = true ->
  exists file buf' a', write_npy k buf a = Ok file /\ read_npy file = Ok (k, buf', a') /\ a_shape a' = a_shape a /\
    forall idx idx', inb idx (a_shape a) -> inb idx' (a_shape a) -> cm_rank (a_shape a) idx = rm_rank (a_shape a) idx' ->
      get buf' a' idx = get buf a idx'.
Proof.
  intros k buf a HA HK HO. destruct (save_load k buf a [] HA HK) as (vals & EW & EE & HL & HV & ER).
  rewrite !app_nil_r in ER. eexists _, _, _. split; [exact EW|]. split; [exact ER|].
  rewrite HO. split; [reflexivity|]. intros idx idx' Hi Hi' E. cbn [negb orb].
  pose proof (chunks_get vals (a_shape a) (itemsize k) true idx [] (itemsize_pos k HK) HV HL Hi) as G.
  rewrite app_nil_r in G. rewrite <- (elems_nth _ _ _ _ EE Hi'), <- E. exact G.
Qed.
(* the transpose of [[0,1],[2,3],[4,5]] *)
Theorem C86_fortran_refuted : exists buf a file buf' a',
  is_array Uint8 buf a /\ a = transpose (fresh [3; 2] 1) /\
  write_npy Uint8 buf a = Ok file /\ read_npy file = Ok (Uint8, buf', a') /\ a_shape a' = a_shape a /\
  map (get buf a) (all_idx [2; 3]) = map (fun z => Some [byte z]) [0; 2; 4; 1; 3; 5]%Z /\
  map (get buf' a') (all_idx [2; 3]) = map (fun z => Some [byte z]) [0; 4; 3; 2; 1; 5]%Z.
Proof.
  exists (map (fun n => [byte (Z.of_nat n)]) (seq 0 6)), (transpose (fresh [3; 2] 1)). eexists _, _, _.
  split; [|split; [reflexivity|]].
  - split; [apply wf_check_sound; vm_compute; reflexivity|]. split; [reflexivity|]. split; [|split; [repeat constructor|split; reflexivity]].
    apply Forall_forall. intros e He. apply in_map_iff in He as (n & <- & _). reflexivity.
  - split; [vm_compute; reflexivity|]. split; [vm_compute; reflexivity|]. split; [reflexivity|]. split; vm_compute; reflexivity.
Qed.
(* an array of strings comes back as an array of empty strings *)
Theorem C86_strings_refuted : exists buf a file a',
  is_array (Bytes 3) buf a /\ map (get buf a) (all_idx [2]) = [Some (txt "abc"); Some (txt "xyz")] /\
  write_npy (Bytes 3) buf a = Ok file /\ read_npy file = Ok (Bytes 0, [], a') /\ a_shape a' = [2] /\ a_item a' = 0%Z.
Proof.
  exists [txt "abc"; txt "xyz"], (fresh [2] 3). eexists _, _. split; [|split; [vm_compute; reflexivity|]].
  - split; [apply wf_check_sound; vm_compute; reflexivity|]. split; [reflexivity|]. split; [repeat constructor|split; [repeat constructor|split; reflexivity]].
  - split; [vm_compute; reflexivity|]. split; [vm_compute; reflexivity|]. split; reflexivity.
Qed.

(* ---- C87: the file is an NPY file for the array ---- *)
Lemma tuple_inner nums : tuple_text nums = txt "(" ++ inner nums ++ txt ")".
Proof.
  assert (HJ : forall l, join (txt ", ") l = commas l).
  { intros l. destruct l as [|x l]; [reflexivity|]. revert x. induction l as [|y l IH]; intros x; cbn [join map concat]; [apply app_nil_r|].
    change (commas (x :: y :: l)) with (x ++ txt ", " ++ commas (y :: l)). rewrite <- IH. cbn [join]. rewrite <- app_assoc. reflexivity. }
  unfold inner. destruct nums as [|d [|e nums]].
  - reflexivity.
  - cbn [List.length Nat.eqb join map concat tuple_text]. rewrite app_nil_r, <- app_assoc. reflexivity.
  - cbn [List.length Nat.eqb]. rewrite app_nil_r, HJ. reflexivity.
Qed.
Lemma header_dictionary k sh f : dictionary (header k sh f) (typestr k) f sh.
Proof.
  exists (map dec sh), (txt "}"). split; [apply decs_denote|]. split; [left; reflexivity|].
  unfold header. rewrite shape_inner, tuple_inner. reflexivity.
Qed.
Lemma preamble_good k sh f : short (header k sh f) -> preamble_ok (preamble (header k sh f)) (typestr k) f sh.
Proof.
  intros HS. exists (len_field (header k sh f)), (header k sh f), (padding (pad_of (header k sh f))).
  split; [apply header_dictionary|]. split.
  - generalize (pad_of (header k sh f)); intros n. destruct n as [|n]; cbn [padding]; [constructor|]. apply Forall_app. split.
    + apply Forall_forall. intros x Hx. apply repeat_spec in Hx as ->. left; reflexivity.
    + constructor; [right; reflexivity|constructor].
  - split; [|apply (len_value _ HS)]. rewrite preamble_eq, len_field_length. unfold version, width, block.
    destruct (wide (header k sh f)); [right|left]; split; reflexivity.
Qed.
(* every byte string from the given position *)
Lemma concat_at item vals i v : sized item vals -> nth_error vals i = Some v -> firstn item (skipn (item * i) (concat vals)) = v.
Proof.
  intros HS HN. rewrite skipn_concat by exact HS. apply nth_error_split in HN as (l1 & l2 & E & HL). subst vals i.
  rewrite skipn_app, skipn_all, Nat.sub_diag. cbn [app skipn concat]. unfold sized in HS. apply Forall_app in HS as [_ HS]. inversion HS; subst.
  apply (cut_app _ v (concat l2) eq_refl).
Qed.
(* _partial: as C86; of a column-major array the file says one order and holds the other *)
Theorem C87_format_partial : forall k buf a,
  is_array k buf a -> not_string k = true -> only_fortran a = false ->
  exists file, write_npy k buf a = Ok file /\
    npy_file file (typestr k) (Z.to_nat (itemsize k)) (a_shape a) (get buf a).
Proof.
  intros k buf a HA HK HO. destruct (save_load k buf a [] HA HK) as (vals & EW & EE & HL & HV & _).
  eexists. split; [exact EW|]. exists (preamble (header k (a_shape a) (only_fortran a))), (concat vals), false.
  split; [reflexivity|]. rewrite HO. destruct HA as (_ & _ & _ & HF & HN & _). split; [apply preamble_good, header_short; assumption|].
  split; [rewrite (concat_len _ _ HV), HL; reflexivity|]. intros idx Hi. rewrite <- (elems_nth _ _ _ _ EE Hi).
  destruct (nth_error vals (rm_rank (a_shape a) idx)) as [v|] eqn:N; [|].
  - f_equal. symmetry. apply (concat_at _ _ _ _ HV N).
  - exfalso. apply nth_error_None in N. change rm_rank with rank in N. pose proof (rank_lt _ _ Hi). unfold size in HL. lia.
Qed.
(* the text of a header, in full *)
Example C87_format_nonvacuous : exists file, write_npy Float64 (map (fun n => repeat (byte (Z.of_nat n)) 8) (seq 0 6)) (fresh [2; 3] 8) = Ok file /\
  file = magic ++ [byte 1; byte 0; byte 118; byte 0] ++ txt "{'descr': '<f8', 'fortran_order': False, 'shape': (2, 3)}"
         ++ repeat " "%char 60 ++ [byte 10] ++ concat (map (fun n => repeat (byte (Z.of_nat n)) 8) (seq 0 6)).
Proof. eexists. split; vm_compute; reflexivity. Qed.


(* every NPY file for a dtype rumpy knows, whichever program wrote it and in whichever
   order, is read as the array it describes *)
Theorem C92_reads : forall k file p data fortran sh elem rest,
  not_string k = true -> Forall (fun d => (Z.of_nat d < 2 ^ 64)%Z) sh -> (Z.of_nat (prod sh) * itemsize k < 2 ^ 63)%Z ->
  preamble_ok p (typestr k) fortran sh -> data_ok data (Z.to_nat (itemsize k)) fortran sh elem -> file = p ++ data ++ rest ->
  exists buf a, read_npy file = Ok (k, buf, a) /\ a_shape a = sh /\ forall idx, inb idx sh -> get buf a idx = elem idx.
Proof.
  intros k file p data f sh elem rest HK HF HB (len & text & pad & HT & HP & HL & EV) (HD & HE) ->.
  pose proof (itemsize_pos k HK) as HI. destruct HT as (nums & close & HN & HC & ET).
  assert (ES : exists e, close = e ++ ["}"%char] /\ forallb is_ascii close = true).
  { destruct HC as [->| ->]; [exists []|exists (txt ", ")]; split; reflexivity. }
  destruct ES as (e & EC & HA).
  assert (EX : text = htext k nums f (e ++ ["}"%char])).
  { rewrite ET, tuple_inner, <- EC. unfold htext. rewrite <- !app_assoc. reflexivity. }
  assert (HS : Forall (fun c => is_space c = true) pad) by (eapply Forall_impl; [|exact HP]; intros c [->| ->]; reflexivity).
  assert (HA' : forallb is_ascii (text ++ pad) = true).
  { rewrite forallb_app, EX, (htext_ascii _ _ sh) by exact HN. rewrite <- EC, HA. apply forallb_forall. intros c Hc.
    rewrite Forall_forall in HP. destruct (HP c Hc) as [->| ->]; reflexivity. }
  assert (ER : read_npy (p ++ data ++ rest) = read_body k sh f (data ++ rest)).
  { assert (G : read_rest (le_value len) ((text ++ pad) ++ data ++ rest) = read_body k sh f (data ++ rest)).
    { unfold read_rest. rewrite EV, app_length. destruct (Z.ltb_spec (Z.of_nat (List.length (text ++ pad) + List.length (data ++ rest))) (Z.of_nat (List.length (text ++ pad)))); [lia|].
      rewrite Nat2Z.id. destruct (cut_app _ (text ++ pad) (data ++ rest) eq_refl) as [-> ->]. rewrite HA'. cbn [negb].
      rewrite EX, (parse_htext k nums sh f e pad) by assumption. rewrite read_back_id by exact HK. reflexivity. }
    rewrite <- G. destruct HL as [(-> & HW)|(-> & HW)]; rewrite <- !app_assoc; unfold read_npy; rewrite take_app by reflexivity;
      replace (chars_eqb magic (byte 147 :: txt "NUMPY")) with true by reflexivity; cbn [negb]; rewrite take_app by reflexivity.
    - change (value (hd (byte 0) [byte 1; byte 0])) with 1%Z. cbn [Z.eqb Pos.eqb]. rewrite take_app by exact HW. reflexivity.
    - change (value (hd (byte 0) [byte 2; byte 0])) with 2%Z. cbn [Z.eqb Pos.eqb Z.leb Z.compare Pos.compare Pos.compare_cont]. rewrite take_app by exact HW. reflexivity. }
  set (vals := chunks (prod sh) (Z.to_nat (itemsize k)) data).
  assert (HV : sized (Z.to_nat (itemsize k)) vals) by (apply chunks_sized; lia).
  assert (EL : List.length vals = prod sh) by apply chunks_length.
  assert (EC' : concat vals = data) by (unfold vals; rewrite concat_chunks, <- HD; apply firstn_all).
  rewrite ER. replace (data ++ rest) with (concat vals ++ rest) by (rewrite EC'; reflexivity).
  eexists _, _. split; [apply body_ok; assumption|]. split; [reflexivity|]. intros idx Hi.
  rewrite chunks_get by assumption. rewrite (HE idx Hi).
  assert (HR : (if f then cm_rank sh idx else rm_rank sh idx) < prod sh).
  { destruct f; [|change rm_rank with rank; apply rank_lt; exact Hi]. change cm_rank with frank. rewrite frank_rev by (apply inb_length; exact Hi).
    rewrite <- (prod_rev sh). apply rank_lt. apply -> inb_rev. exact Hi. }
  unfold vals. apply chunks_nth. exact HR.
Qed.
(* a file as NumPy writes it for the column-major matrix [[0,2,4],[1,3,5]] *)
Example C92_reads_nonvacuous :
  let p := magic ++ [byte 1; byte 0; byte 118; byte 0] ++ txt "{'descr': '|u1', 'fortran_order': True, 'shape': (2, 3), }" ++ repeat " "%char 59 ++ [byte 10] in
  preamble_ok p (typestr Uint8) true [2; 3] /\
  exists buf a, read_npy (p ++ map byte [0; 1; 2; 3; 4; 5]%Z) = Ok (Uint8, buf, a) /\
    map (get buf a) (all_idx [2; 3]) = map (fun z => Some [byte z]) [0; 2; 4; 1; 3; 5]%Z.
Proof.
  cbv zeta. split.
  - exists [byte 118; byte 0], (txt "{'descr': '|u1', 'fortran_order': True, 'shape': (2, 3), }"), (repeat " "%char 59 ++ [byte 10]).
    split; [|split; [|split; [left; split; reflexivity|reflexivity]]].
    + exists [txt "2"; txt "3"], (txt ", }"). split; [|split; [right; reflexivity|reflexivity]].
      constructor; [|constructor; [|constructor]]; (split; [discriminate|split; [repeat constructor; vm_compute; discriminate|reflexivity]]).
    + apply Forall_app. split; [apply Forall_forall; intros c Hc; apply repeat_spec in Hc as ->; left; reflexivity|constructor; [right; reflexivity|constructor]].
  - eexists _, _. split; vm_compute; reflexivity.
Qed.

(* the elements start at a multiple of 64 bytes.  _partial: at most 2900 axes *)
Lemma preamble_length h : List.length (preamble h) = 8 + width h + List.length h + pad_of h.
Proof. rewrite preamble_eq, !app_length, version_length, len_field_length, block_length. change (List.length magic) with 6. lia. Qed.
Lemma aligned_10 n : (10 + n + (64 - ((10 + n) mod 64)) mod 64) mod 64 = 0.
Proof.
  pose proof (Nat.mod_upper_bound (10 + n) 64 ltac:(lia)) as B. pose proof (Nat.div_mod (10 + n) 64 ltac:(lia)) as E.
  set (q := (10 + n) / 64) in *. set (m := (10 + n) mod 64) in *. destruct (Nat.eq_dec m 0) as [H|H].
  - rewrite H. change ((64 - 0) mod 64) with 0. replace (10 + n + 0) with (q * 64) by lia. apply Nat.mod_mul. lia.
  - rewrite (Nat.mod_small (64 - m)) by lia. replace (10 + n + (64 - m)) with ((q + 1) * 64) by lia. apply Nat.mod_mul. lia.
Qed.
Theorem C87_aligned_partial : forall k buf a,
  is_array k buf a -> not_string k = true -> ndim a <= 2900 ->
  exists p data, write_npy k buf a = Ok (p ++ data) /\ Z.of_nat (List.length data) = (Z.of_nat (size a) * itemsize k)%Z /\ List.length p mod 64 = 0.
Proof.
  intros k buf a HA HK HN. destruct (save_load k buf a [] HA HK) as (vals & EW & EE & HL & HV & _).
  eexists _, _. split; [exact EW|]. split; [rewrite (concat_len _ _ HV), HL; pose proof (itemsize_pos k HK); lia|].
  set (h := header k (a_shape a) (only_fortran a)). rewrite preamble_length.
  destruct HA as (_ & _ & _ & HF & _). pose proof (header_length k (a_shape a) (only_fortran a) HF) as L. fold h in L.
  pose proof (pad_small h). unfold ndim in HN. unfold width, wide. rewrite block_length.
  destruct (Z.ltb_spec 65535 (Z.of_nat (List.length h + pad_of h))); [lia|].
  unfold pad_of. replace (8 + 2 + List.length h) with (10 + List.length h) by lia. apply aligned_10.
Qed.
Lemma prod_ones n : prod (repeat 1 n) = 1.
Proof. induction n as [|n IH]; [reflexivity|]. cbn [repeat prod]. lia. Qed.
(* with so many axes that the header needs the four-byte length, the data starts two bytes
   past a multiple of 64 *)
Theorem C87_alignment_refuted : exists k buf a p data,
  is_array k buf a /\ not_string k = true /\ only_fortran a = false /\
  write_npy k buf a = Ok (p ++ data) /\ Z.of_nat (List.length data) = (Z.of_nat (size a) * itemsize k)%Z /\ List.length p mod 64 = 2.
Proof.
  set (n := Z.to_nat 40000). assert (Hn : n = Z.to_nat 40000) by reflexivity. clearbody n.
  set (sh := repeat 1 n).
  assert (HP : prod sh = 1) by apply prod_ones.
  assert (HF : Forall (fun d => (Z.of_nat d < 2 ^ 64)%Z) sh) by (apply Forall_forall; intros d Hd; apply repeat_spec in Hd as ->; reflexivity).
  assert (HA : is_array Uint8 [[byte 7]] (fresh sh 1)).
  { split; [apply fresh_wf; [lia|reflexivity|rewrite HP; reflexivity]|]. split; [reflexivity|]. split; [repeat constructor|].
    split; [exact HF|]. split; [unfold ndim, fresh, sh; cbn [a_shape]; rewrite repeat_length; lia|].
    unfold size, fresh; cbn [a_shape]. rewrite HP. reflexivity. }
  destruct (save_load Uint8 _ _ [] HA eq_refl) as (vals & EW & EE & HL & HV & _).
  eexists Uint8, _, _, _, _. split; [exact HA|]. split; [reflexivity|]. split; [reflexivity|]. split; [exact EW|].
  split; [rewrite (concat_len _ _ HV), HL; cbn [itemsize]; lia|].
  cbn [a_shape fresh]. set (h := header Uint8 sh (only_fortran (fresh sh 1))). rewrite preamble_length.
  assert (L : 3 * n <= List.length h + 3).
  { unfold h, header, shape_str. rewrite !app_length. change (map (fun d => digits (Z.of_nat d)) sh) with (map dec sh).
    assert (HJ : 3 * n <= List.length (join (txt ", ") (map dec sh)) + 2).
    { unfold sh. clear. destruct n as [|n]; [cbn; lia|]. cbn [repeat map join]. rewrite app_length.
      assert (E : List.length (concat (map (fun y => txt ", " ++ y) (map dec (repeat 1 n)))) = 3 * n).
      { induction n as [|n IH]; [reflexivity|]. cbn [repeat map concat]. rewrite !app_length, IH. change (List.length (dec 1)) with 1. change (List.length (txt ", ")) with 2. lia. }
      change (concat (map (fun y : list ascii => txt ", " ++ y) (map dec (repeat 1 n)))) with (concat (map (fun y => txt ", " ++ y) (map dec (repeat 1 n)))).
      rewrite E. change (List.length (dec 1)) with 1. lia. }
    lia. }
  unfold width, wide. rewrite block_length. destruct (Z.ltb_spec 65535 (Z.of_nat (List.length h + pad_of h))); [|lia].
  unfold pad_of. pose proof (aligned_10 (List.length h)) as A.
  replace (8 + 4 + List.length h + (64 - ((10 + List.length h) mod 64)) mod 64) with (2 + (10 + List.length h + (64 - ((10 + List.length h) mod 64)) mod 64)) by lia.
  rewrite <- Nat.add_mod_idemp_r, A by lia. reflexivity.
Qed.
(* a header that happens to fill its block is not ended by a newline: the last byte before
   the (empty) data is the brace *)
Theorem C87_newline_refuted : exists a file,
  is_array Float64 [] a /\ size a = 0 /\ write_npy Float64 [] a = Ok file /\ last file " "%char = "}"%char.
Proof.
  exists (fresh (0 :: 100 :: 10 :: 10 :: repeat 1 17) 8). eexists.
  split; [|split; [reflexivity|split; [vm_compute; reflexivity|vm_compute; reflexivity]]].
  split; [apply fresh_wf; [lia|reflexivity|reflexivity]|]. split; [reflexivity|]. split; [constructor|split; [|split; reflexivity]].
  repeat constructor; vm_compute; reflexivity.
Qed.

(* ---- C88: a file cut short is never taken for an array ---- *)
(* _partial: not for strings, whose data is not read at all *)
Theorem C88_truncated_partial : forall k buf a file n,
  is_array k buf a -> not_string k = true -> write_npy k buf a = Ok file ->
  n < List.length file -> read_npy (firstn n file) = Err.
Proof.
  intros k buf a file n HA HK EW HN. destruct (save_load k buf a [] HA HK) as (vals & EW' & EE & HL & HV & _).
  pose proof (res_ok_inj _ _ (eq_trans (eq_sym EW) EW')) as EF. subst file. clear EW. set (h := header k (a_shape a) (only_fortran a)) in *.
  destruct HA as (_ & _ & _ & HF & HN' & HB). assert (HS : short h) by (apply header_short; assumption).
  destruct (le_lt_dec (List.length (preamble h)) n) as [L|L].
  - rewrite firstn_over by exact L. unfold h. rewrite read_whole by assumption. fold h. rewrite read_back_id by exact HK.
    apply body_cut; [apply itemsize_pos; exact HK|exact HB|]. rewrite app_length in HN. rewrite firstn_length.
    rewrite (concat_len _ _ HV), HL in *. unfold size in *. pose proof (itemsize_pos k HK). nia.
  - rewrite firstn_under by lia. apply read_cut; assumption.
Qed.
Example C88_truncated_nonvacuous : exists file, write_npy Uint8 (map (fun n => [byte (Z.of_nat n)]) (seq 0 6)) (fresh [3; 2] 1) = Ok file /\
  List.length file = 134 /\ map (fun n => read_npy (firstn n file)) [0; 7; 9; 127; 128; 133] = repeat Err 6.
Proof. eexists. split; [vm_compute; reflexivity|]. split; vm_compute; reflexivity. Qed.
(* bytes after the array are not looked at *)
Theorem C88_trailing_partial : forall k buf a file r,
  is_array k buf a -> not_string k = true -> only_fortran a = false -> write_npy k buf a = Ok file ->
  exists buf' a', read_npy (file ++ r) = Ok (k, buf', a') /\ same_array buf' a' buf a.
Proof.
  intros k buf a file r HA HK HO EW. destruct (save_load k buf a r HA HK) as (vals & EW' & EE & HL & HV & ER).
  pose proof (res_ok_inj _ _ (eq_trans (eq_sym EW) EW')) as EF. subst file. clear EW. eexists _, _. split; [exact ER|]. rewrite HO. split; [reflexivity|]. intros idx Hi. cbn [negb orb].
  rewrite <- (elems_nth _ _ _ _ EE Hi). apply (chunks_get vals (a_shape a) (itemsize k) false idx r (itemsize_pos k HK) HV HL Hi).
Qed.
(* a file of strings that lost all its data still loads *)
Theorem C88_strings_refuted : exists buf a file n x,
  is_array (Bytes 3) buf a /\ write_npy (Bytes 3) buf a = Ok file /\ n < List.length file /\ read_npy (firstn n file) = Ok x.
Proof.
  exists [txt "abc"; txt "xyz"], (fresh [2] 3). eexists _, 128, _. split.
  - split; [apply wf_check_sound; vm_compute; reflexivity|]. split; [reflexivity|]. split; [repeat constructor|split; [repeat constructor|split; reflexivity]].
  - split; [vm_compute; reflexivity|]. split; [apply Nat.ltb_lt; vm_compute; reflexivity|]. vm_compute; reflexivity.
Qed.

(* ---- C89: raw bytes ---- *)
Lemma fits_any k buf a : is_array k buf a -> (0 < itemsize k)%Z.
Proof. intros ((HI & _) & E & _). rewrite <- E. exact HI. Qed.
(* the bytes of the elements in row-major order, whatever the layout and dtype *)
Theorem C89_tobytes : forall k buf a,
  is_array k buf a -> exists b, tobytes k buf a = Ok b /\ data_ok b (Z.to_nat (itemsize k)) false (a_shape a) (get buf a).
Proof.
  intros k buf a HA. pose proof (array_sized _ _ _ HA) as HS. pose proof HA as (W & EI & _).
  destruct (tobytes_spec k buf a W HS) as (vals & ET & EE & HL & HV). rewrite EI in HV. exists (concat vals). split; [exact ET|].
  split; [rewrite (concat_len _ _ HV), HL; reflexivity|]. intros idx Hi. rewrite <- (elems_nth _ _ _ _ EE Hi).
  destruct (nth_error vals (rm_rank (a_shape a) idx)) as [v|] eqn:N.
  - f_equal. symmetry. apply (concat_at _ _ _ _ HV N).
  - exfalso. apply nth_error_None in N. change rm_rank with rank in N. pose proof (rank_lt _ _ Hi). unfold size in HL. lia.
Qed.
Example C89_tobytes_nonvacuous : tobytes Uint8 (map (fun n => [byte (Z.of_nat n)]) (seq 0 6)) (transpose (fresh [3; 2] 1)) = Ok (map byte [0; 2; 4; 1; 3; 5]%Z).
Proof. vm_compute; reflexivity. Qed.

(* which window of the bytes becomes which elements *)
Definition window (data : bytes) (item offset : nat) (n : nat) (buf : list bytes) (a : arr) : Prop :=
  a_shape a = [n] /\ (n = 0 \/ offset + n * item <= List.length data) /\
  forall i, i < n -> get buf a [i] = Some (firstn item (skipn (offset + i * item) data)).
Lemma window_ok data item offset n : 0 < item -> (n = 0 \/ offset + n * item <= List.length data) ->
  window data item offset n (chunks n item (skipn offset data)) (mkArr 0 [n] [Z.of_nat item] (Z.of_nat item) true false).
Proof.
  intros HI HW. split; [reflexivity|]. split; [exact HW|]. intros i Hi. unfold get, byte_offset_for. cbn [a_item a_off a_strides dot].
  replace (0 + (Z.of_nat i * Z.of_nat item + 0))%Z with (Z.of_nat item * Z.of_nat i)%Z by lia. rewrite load_at by lia.
  rewrite chunks_nth by exact Hi. rewrite skipn_skipn'. do 3 f_equal. lia.
Qed.
Theorem C89_frombuffer : forall data item count offset,
  (0 < item)%Z -> (0 <= offset)%Z ->
  let most := (Z.max 0 (Z.of_nat (List.length data) - offset) / item)%Z in
  let n := if (count <? 0)%Z then most else count in
  if (count <=? most)%Z
  then exists buf a, frombuffer data item count offset = Ok (buf, a) /\ window data (Z.to_nat item) (Z.to_nat offset) (Z.to_nat n) buf a
  else frombuffer data item count offset = Err.
Proof.
  intros data item count offset HI HO most n.
  assert (HM : (0 <= most)%Z) by (apply Z.div_pos; lia).
  assert (HE : frombuffer data item count offset = if (0 <=? count)%Z && (most <? count)%Z then Err else
     Ok (chunks (Z.to_nat n) (Z.to_nat item) (skipn (Z.to_nat offset) data), mkArr 0 [Z.to_nat n] [item] item true false)).
  { unfold frombuffer. destruct (Z.eqb_spec item 0); [lia|]. reflexivity. }
  rewrite HE. destruct (Z.leb_spec count most) as [L|L].
  - replace ((0 <=? count)%Z && (most <? count)%Z) with false by (destruct (0 <=? count)%Z; [cbn [andb]; symmetry; apply Z.ltb_ge; lia|reflexivity]).
    eexists _, _. split; [reflexivity|]. pose proof (window_ok data (Z.to_nat item) (Z.to_nat offset) (Z.to_nat n)) as G.
    rewrite Z2Nat.id in G by lia. apply G; [lia|].
    assert (Hn : (0 <= n <= most)%Z) by (unfold n; destruct (Z.ltb_spec count 0); lia).
    pose proof (Z.mul_div_le (Z.max 0 (Z.of_nat (List.length data) - offset)) item HI) as U. fold most in U. nia.
  - destruct (Z.leb_spec 0 count); [|lia]. destruct (Z.ltb_spec most count); [reflexivity|lia].
Qed.
(* fromfile is frombuffer on the file's bytes, with the count reduced to what is there *)
Theorem C89_fromfile : forall data item count offset,
  (0 < item)%Z -> (0 <= offset)%Z ->
  let most := (Z.max 0 (Z.of_nat (List.length data) - offset) / item)%Z in
  fromfile data item count offset = frombuffer data item (Z.min count most) offset.
Proof.
  intros data item count offset HI HO most. assert (HM : (0 <= most)%Z) by (apply Z.div_pos; lia).
  unfold fromfile, frombuffer. destruct (Z.eqb_spec item 0); [lia|]. fold most.
  destruct (Z.ltb_spec count 0) as [L|L].
  - rewrite Z.min_l by lia. destruct (Z.leb_spec 0 count); [lia|]. cbn [andb]. destruct (Z.ltb_spec count 0); [reflexivity|lia].
  - destruct (Z.leb_spec 0 (Z.min count most)); [|lia]. destruct (Z.ltb_spec most (Z.min count most)); [lia|]. cbn [andb].
    destruct (Z.ltb_spec (Z.min count most) 0); [lia|]. reflexivity.
Qed.
Example C89_frombuffer_nonvacuous :
  (exists buf a, frombuffer (map byte [1; 2; 3; 4; 5; 6; 7]%Z) 2 2 1 = Ok (buf, a) /\ map (get buf a) (all_idx [2]) = [Some (map byte [2; 3]%Z); Some (map byte [4; 5]%Z)]) /\
  frombuffer (map byte [1; 2; 3; 4; 5; 6; 7]%Z) 2 4 1 = Err /\
  exists buf a, fromfile (map byte [1; 2; 3; 4; 5; 6; 7]%Z) 2 4 1 = Ok (buf, a) /\ a_shape a = [3].
Proof.
  split; [eexists _, _; split; vm_compute; reflexivity|]. split; [vm_compute; reflexivity|]. eexists _, _; split; vm_compute; reflexivity.
Qed.
(* bytes of an array read back: the elements in row-major order *)
Theorem C89_roundtrip : forall k buf a,
  is_array k buf a ->
  exists b buf' a', tobytes k buf a = Ok b /\ frombuffer b (itemsize k) (-1) 0 = Ok (buf', a') /\ fromfile b (itemsize k) (-1) 0 = Ok (buf', a') /\
    a_shape a' = [size a] /\ forall idx, inb idx (a_shape a) -> get buf' a' [rm_rank (a_shape a) idx] = get buf a idx.
Proof.
  intros k buf a HA. destruct (C89_tobytes k buf a HA) as (b & ET & HL & HD). pose proof (fits_any _ _ _ HA) as HI.
  pose proof (C89_frombuffer b (itemsize k) (-1) 0 HI ltac:(lia)) as HB. cbv zeta in HB.
  assert (EM : (Z.max 0 (Z.of_nat (List.length b) - 0) / itemsize k = Z.of_nat (size a))%Z).
  { rewrite HL. replace (Z.max 0 (Z.of_nat (Z.to_nat (itemsize k) * prod (a_shape a)) - 0)) with (Z.of_nat (prod (a_shape a)) * itemsize k)%Z by nia.
    rewrite Z.div_mul by lia. reflexivity. }
  rewrite EM in HB. destruct (Z.leb_spec (-1) (Z.of_nat (size a))) as [_|]; [|lia].
  change (-1 <? 0)%Z with true in HB. cbn iota in HB. destruct HB as (buf' & a' & EB & ES & HW & HG). rewrite Nat2Z.id in *.
  exists b, buf', a'. split; [exact ET|]. split; [exact EB|]. split.
  { rewrite (C89_fromfile b (itemsize k) (-1) 0 HI ltac:(lia)), EM. rewrite Z.min_l by lia. exact EB. }
  split; [exact ES|]. intros idx Hi. rewrite (HD idx Hi), HG.
  - cbn [Z.to_nat]. do 3 f_equal. lia.
  - change rm_rank with rank. apply rank_lt. exact Hi.
Qed.
(* ... and array from bytes, back to bytes: the window that was read *)
Theorem C89_back : forall k data count offset buf a,
  (0 < itemsize k)%Z -> (0 <= offset)%Z -> frombuffer data (itemsize k) count offset = Ok (buf, a) ->
  tobytes k buf a = Ok (firstn (size a * Z.to_nat (itemsize k)) (skipn (Z.to_nat offset) data)).
Proof.
  intros k data count offset buf a HI HO. unfold frombuffer. destruct (Z.eqb_spec (itemsize k) 0) as [H00|_]; [lia|].
  set (most := (Z.max 0 (Z.of_nat (List.length data) - offset) / itemsize k)%Z).
  assert (HM : (0 <= most)%Z) by (apply Z.div_pos; lia).
  destruct ((0 <=? count)%Z && (most <? count)%Z) eqn:HC; [discriminate|]. set (n := if (count <? 0)%Z then most else count).
  intros E. injection E as <- <-.
  assert (Hn : (0 <= n <= most)%Z) by (unfold n; destruct (Z.ltb_spec count 0); [lia|]; apply andb_false_iff in HC as [HC|HC]; [apply Z.leb_gt in HC|apply Z.ltb_ge in HC]; lia).
  unfold tobytes, size. cbn [a_c a_shape a_item a_off prod]. rewrite Nat.mul_1_r, Z2Nat.id by lia. rewrite concat_chunks. unfold raw.
  destruct (Z.eqb_spec (n * itemsize k) 0) as [H0|H0]; [assert (EN : n = 0%Z) by nia; clearbody n; subst n; reflexivity|]. cbn [Z.leb Z.compare andb].
  rewrite firstn_length, skipn_length. pose proof (Z.mul_div_le (Z.max 0 (Z.of_nat (List.length data) - offset)) (itemsize k) HI) as U. fold most in U.
  destruct (Z.leb_spec (0 + n * itemsize k) (Z.of_nat (Nat.min (Z.to_nat (itemsize k) * Z.to_nat n) (List.length data - Z.to_nat offset)))) as [_|L]; [|nia].
  cbn [Z.to_nat skipn]. rewrite firstn_firstn. do 2 f_equal. nia.
Qed.
(* bytes left over at the end are dropped without an error (numpy refuses them) *)
Theorem C89_leftover_refuted : exists data buf a, List.length data mod 8 <> 0 /\ frombuffer data 8 (-1) 0 = Ok (buf, a) /\ a_shape a = [1].
Proof. exists (repeat (byte 1) 13). eexists _, _. split; [vm_compute; discriminate|]. split; vm_compute; reflexivity. Qed.
(* a dtype without a width: the number of elements is a division by zero *)
Theorem C89_width_refuted : exists k, parse_dtype (txt "str") = Some k /\ frombuffer (txt "abcd") (itemsize k) (-1) 0 = Panic.
Proof. exists (Str 0). split; vm_compute; reflexivity. Qed.

(* ---- C90: several arrays in one file ---- *)
Definition saveable (x : kind * list bytes * arr) : Prop :=
  let '(k, buf, a) := x in is_array k buf a /\ not_string k = true /\ only_fortran a = false.
Definition same (x y : kind * list bytes * arr) : Prop :=
  let '(k', buf', a') := x in let '(k, buf, a) := y in k' = k /\ same_array buf' a' buf a.
Definition plain_name (n : bytes) : Prop := forall m, n <> m ++ txt ".npy".

Lemma starts_with_app p s : starts_with p s = true <-> exists r, s = p ++ r.
Proof.
  revert s. induction p as [|c p IH]; intros s; cbn [starts_with app]; [split; [intros _; exists s; reflexivity|reflexivity]|].
  destruct s as [|x s]; [split; [discriminate|intros (r & E); discriminate]|]. rewrite andb_true_iff, IH. split.
  - intros (E & r & ->). apply Ascii.eqb_eq in E as ->. exists r; reflexivity.
  - intros (r & E). injection E as -> ->. split; [apply Ascii.eqb_refl|exists r; reflexivity].
Qed.
Lemma ends_with_app p s : ends_with p s = true <-> exists r, s = r ++ p.
Proof.
  unfold ends_with. rewrite starts_with_app. split; intros (r & E).
  - exists (rev r). rewrite <- (rev_involutive s), E, rev_app_distr, rev_involutive. reflexivity.
  - exists (rev r). rewrite E, rev_app_distr. reflexivity.
Qed.
Lemma trim_plain n : plain_name n -> trim_end_matches suffix (n ++ suffix) = n.
Proof.
  intros HP. unfold trim_end_matches. rewrite app_length. change (List.length suffix) with 4. replace (List.length n + 4) with (S (S (List.length n + 2))) by lia.
  assert (E1 : ends_with suffix (n ++ suffix) = true) by (apply ends_with_app; exists n; reflexivity).
  assert (E2 : ends_with suffix n = false).
  { destruct (ends_with suffix n) eqn:E; [|reflexivity]. apply ends_with_app in E as (r & E). destruct (HP r E). }
  cbn [trim_end_fuel]. rewrite E1. rewrite app_length. replace (List.length n + List.length suffix - List.length suffix) with (List.length n) by lia.
  rewrite (proj1 (cut_app (List.length n) n suffix eq_refl)). rewrite E2. reflexivity.
Qed.
Lemma chars_eqb_spec a b : chars_eqb a b = true <-> a = b.
Proof. unfold chars_eqb. destruct (list_eq_dec ascii_dec a b); split; congruence. Qed.

Lemma savez_ok l : forall done, Forall (fun p => saveable (snd p)) l -> NoDup (map fst done ++ map (fun p => fst p ++ suffix) l) ->
  exists files, savez_loop l done = Ok (done ++ combine (map (fun p => fst p ++ suffix) l) files) /\
    Forall2 (fun p b => exists y, read_npy b = Ok y /\ same y (snd p)) l files.
Proof.
  induction l as [|[name [[k buf] a]] l IH]; intros done HS HN.
  - exists []. split; [cbn; rewrite app_nil_r; reflexivity|constructor].
  - inversion HS as [|? ? HSv HS']; subst. cbn [snd saveable] in HSv. destruct HSv as (HA & HK & HO). cbn [map fst] in HN.
    destruct (C86_roundtrip_partial k buf a HA HK HO) as (file & buf' & a' & EW & ER & HE).
    destruct (IH (done ++ [(name ++ suffix, file)]) HS') as (files & EL & HF).
    { rewrite map_app, <- app_assoc. exact HN. }
    exists (file :: files). split.
    + cbn [savez_loop]. replace (existsb (fun m => chars_eqb (fst m) (name ++ suffix)) done) with false.
      * rewrite EW. cbn [bind]. etransitivity; [exact EL|]. rewrite <- app_assoc. reflexivity.
      * symmetry. apply not_true_is_false. intros HX. apply existsb_exists in HX as (m & Hm & EQ). apply chars_eqb_spec in EQ.
        apply NoDup_remove_2 in HN. apply HN. apply in_app_iff. left. rewrite <- EQ. apply in_map. exact Hm.
    + constructor; [|exact HF]. exists (k, buf', a'). split; [exact ER|]. split; [reflexivity|exact HE].
Qed.
Lemma load_ok l files : Forall (fun p : named => plain_name (fst p)) l ->
  Forall2 (fun (p : named) b => exists y, read_npy b = Ok y /\ same y (snd p)) l files ->
  exists l', load_npz (combine (map (fun p => fst p ++ suffix) l) files) = Ok l' /\
    Forall2 (fun q p => fst q = fst p /\ same (snd q) (snd p)) l' l.
Proof.
  intros HP HF. induction HF as [|[name x] b l files (y & ER & HS) HF IH].
  - exists []. split; [reflexivity|constructor].
  - inversion HP as [|? ? HP1 HP2]; subst. destruct (IH HP2) as (l' & EL & HL). exists ((name, y) :: l'). split.
    + cbn [map fst combine load_npz].
      replace (ends_with suffix (name ++ suffix)) with true by (symmetry; apply ends_with_app; exists name; reflexivity).
      rewrite ER. cbn [bind]. rewrite EL. cbn [bind]. rewrite trim_plain by exact HP1. reflexivity.
    + constructor; [split; [reflexivity|exact HS]|exact HL].
Qed.
(* _partial: names that do not themselves end in ".npy"; arrays as in C86 *)
Theorem C90_archive_partial : forall l,
  Forall (fun p => saveable (snd p)) l -> NoDup (map fst l) -> Forall (fun p => plain_name (fst p)) l ->
  exists members l', savez l = Ok members /\ load_npz members = Ok l' /\
    Forall2 (fun q p => fst q = fst p /\ same (snd q) (snd p)) l' l.
Proof.
  intros l HS HN HP. destruct (savez_ok l [] HS) as (files & ES & HF).
  { cbn [map app]. rewrite <- (map_map fst (fun n => n ++ suffix)). apply FinFun.Injective_map_NoDup; [|exact HN].
    intros x y E. apply app_inv_tail in E. exact E. }
  destruct (load_ok l files HP HF) as (l' & EL & HL). exists (combine (map (fun p => fst p ++ suffix) l) files), l'. split; [exact ES|]. split; assumption.
Qed.
(* the dict load returns: each name gives its array *)
Lemma assoc_in {A} (l : list (bytes * A)) n x : NoDup (map fst l) -> In (n, x) l -> assoc n l = Some x.
Proof.
  induction l as [|[m y] l IH]; intros HN HI; [destruct HI|]. cbn [assoc]. inversion HN as [|? ? H1 H2]; subst. destruct HI as [E|HI].
  - injection E as -> ->. replace (chars_eqb n n) with true by (symmetry; apply chars_eqb_spec; reflexivity). reflexivity.
  - destruct (chars_eqb m n) eqn:E; [|apply IH; assumption]. apply chars_eqb_spec in E as ->. exfalso. apply H1. apply (in_map fst) in HI. exact HI.
Qed.
Theorem C90_lookup_partial : forall l name x,
  Forall (fun p => saveable (snd p)) l -> NoDup (map fst l) -> Forall (fun p => plain_name (fst p)) l -> In (name, x) l ->
  exists members l' y, savez l = Ok members /\ load_npz members = Ok l' /\ dict l' name = Some y /\ same y x.
Proof.
  intros l name x HS HN HP HI. destruct (C90_archive_partial l HS HN HP) as (members & l' & ES & EL & HF).
  assert (EN : map fst l' = map fst l) by (clear - HF; induction HF as [|q p l' l (E & _) _ IH]; [reflexivity|cbn; congruence]).
  assert (HX : exists y, In (name, y) l' /\ same y x).
  { clear - HF HI. induction HF as [|[m z] p l' l (E & HS) HF IH]; [destruct HI|]. destruct HI as [->|HI].
    - cbn in E; subst. exists z. split; [left; reflexivity|exact HS].
    - destruct (IH HI) as (y & Hy & Hs). exists y. split; [right; exact Hy|exact Hs]. }
  destruct HX as (y & Hy & Hs). exists members, l', y. split; [exact ES|]. split; [exact EL|]. split; [|exact Hs].
  assert (ND : NoDup (map fst l')) by (rewrite EN; exact HN). apply NoDup_rev in ND. rewrite <- map_rev in ND.
  unfold dict. apply assoc_in; [exact ND|apply -> in_rev; exact Hy].
Qed.
(* an archive never holds two members of one name: each array given is in it, in order *)
Lemma savez_members : forall l done members, savez_loop l done = Ok members -> NoDup (map fst done) ->
  map fst members = map fst done ++ map (fun p => fst p ++ suffix) l /\ NoDup (map fst members).
Proof.
  induction l as [|[name [[k buf] a]] l IH]; intros done members; cbn [savez_loop].
  - intros E ND. injection E as <-. cbn [map]. rewrite app_nil_r. split; [reflexivity|exact ND].
  - destruct (existsb (fun m => chars_eqb (fst m) (name ++ suffix)) done) eqn:EX; [discriminate|]. destruct (write_npy k buf a) as [b| | |]; try discriminate. cbn [bind].
    intros E ND. destruct (IH _ _ E) as [E1 E2].
    + rewrite map_app. cbn [map fst]. eapply Permutation.Permutation_NoDup; [apply Permutation.Permutation_cons_append|].
      constructor; [|exact ND]. intros H. apply in_map_iff in H as ([m x] & Em & Hin). cbn [fst] in Em.
      assert (existsb (fun m => chars_eqb (fst m) (name ++ suffix)) done = true) as EX'; [|congruence].
      apply existsb_exists. exists (m, x). split; [exact Hin|]. apply chars_eqb_spec. exact Em.
    + rewrite map_app in E1. cbn [map fst] in E1. rewrite <- app_assoc in E1. cbn [app] in E1. split; assumption.
Qed.
Theorem C90_no_overwrite : forall l members, savez l = Ok members ->
  map fst members = map (fun p => fst p ++ suffix) l /\ NoDup (map fst l).
Proof.
  intros l members E. destruct (savez_members l [] members E) as [E1 E2]; [constructor|]. cbn [map app] in E1. split; [exact E1|].
  rewrite E1 in E2. rewrite <- (map_map fst (fun n => n ++ suffix)) in E2. apply NoDup_map_inv in E2. exact E2.
Qed.
Definition one_byte (z : Z) : kind * list bytes * arr := (Uint8, [[byte z]], fresh [1] 1).
Lemma one_byte_ok z : saveable (one_byte z).
Proof.
  split; [|split; reflexivity]. split; [apply fresh_wf; [lia|reflexivity|reflexivity]|]. split; [reflexivity|]. split; [repeat constructor|split; [repeat constructor|split; reflexivity]].
Qed.
Example C90_archive_nonvacuous : exists members l', savez [(txt "x", one_byte 3); (txt "arr_0", one_byte 4)] = Ok members /\
  map fst members = [txt "x.npy"; txt "arr_0.npy"] /\ load_npz members = Ok l' /\ map fst l' = [txt "x"; txt "arr_0"].
Proof. eexists _, _. split; [vm_compute; reflexivity|]. split; [reflexivity|]. split; vm_compute; reflexivity. Qed.
Example C90_lookup_nonvacuous : exists l' y,
  match savez [(txt "x", one_byte 3); (txt "arr_0", one_byte 4)] with Ok m => load_npz m | _ => Panic end = Ok l' /\
  dict l' (txt "x") = Some y /\ (let '(k, buf, a) := y in (k, get buf a [0])) = (Uint8, Some [byte 3]).
Proof. eexists _, _. split; [vm_compute; reflexivity|]. split; vm_compute; reflexivity. Qed.
(* the array called "a.npy" comes back as "a" *)
Theorem C90_name_refuted : exists x members l', saveable x /\ savez [(txt "a.npy", x)] = Ok members /\ load_npz members = Ok l' /\
  dict l' (txt "a.npy") = None /\ map fst l' = [txt "a"].
Proof.
  exists (one_byte 3). eexists _, _. split; [apply one_byte_ok|]. split; [vm_compute; reflexivity|]. split; [vm_compute; reflexivity|]. split; vm_compute; reflexivity.
Qed.
(* of the arrays "a" and "a.npy" only the second can be read back *)
Theorem C90_lost_refuted : exists members l', savez [(txt "a", one_byte 3); (txt "a.npy", one_byte 4)] = Ok members /\ load_npz members = Ok l' /\
  exists buf a, dict l' (txt "a") = Some (Uint8, buf, a) /\ get buf a [0] = Some [byte 4] /\ dict l' (txt "a.npy") = None.
Proof. eexists _, _. split; [vm_compute; reflexivity|]. split; [vm_compute; reflexivity|]. eexists _, _. split; [vm_compute; reflexivity|]. split; vm_compute; reflexivity. Qed.

(* ---- C91: whatever the bytes, a loaded array stays inside its memory ---- *)
Lemma read_npy_body s k buf a : read_npy s = Ok (k, buf, a) -> exists k' sh f t, read_body k' sh f t = Ok (k, buf, a).
Proof.
  unfold read_npy. destruct (take 6 s) as [[m s1]|]; [|discriminate]. destruct (negb _); [discriminate|].
  destruct (take 2 s1) as [[v s2]|]; [|discriminate].
  destruct (if (value (hd (byte 0) v) =? 1)%Z then _ else _) as [w|]; [|discriminate].
  destruct (take w s2) as [[l s3]|]; [|discriminate]. destruct (_ <? _)%Z; [discriminate|]. destruct (negb _); [discriminate|].
  destruct (parse_header _) as [[[k' sh] f]|]; [|discriminate]. intros E. eexists _, _, _, _. exact E.
Qed.
(* _partial: provided the number of bytes the header asks for is below 2^64 *)
Theorem C91_memory_partial : forall s k buf a,
  read_npy s = Ok (k, buf, a) -> (0 < itemsize k)%Z -> (Z.of_nat (size a) * itemsize k < 2 ^ 64)%Z ->
  a_item a = itemsize k /\ forall idx, inb idx (a_shape a) -> exists v, get buf a idx = Some v /\ Z.of_nat (List.length v) = itemsize k.
Proof.
  intros s k buf a ER HI HB. apply read_npy_body in ER as (k' & sh & f & t & ER). unfold read_body in ER.
  destruct (2 ^ 63 <=? _)%Z eqn:E1; [discriminate|]. destruct (_ <? _)%Z eqn:E2; [discriminate|]. injection ER as <- <- <-.
  split; [reflexivity|]. unfold size in HB. cbn [a_shape a_item] in *. intros idx Hi.
  apply Z.ltb_ge in E2. unfold usize_prod, wrap_usize, two64 in *. rewrite (Z.mod_small (Z.of_nat (prod sh))) in * by nia.
  rewrite Z.mod_small in * by nia. rewrite Z.div_mul by lia. rewrite Nat2Z.id.
  assert (HR : (if f then frank sh idx else rank sh idx) < prod sh).
  { destruct f; [|apply rank_lt; exact Hi]. rewrite frank_rev by (apply inb_length; exact Hi). rewrite <- (prod_rev sh). apply rank_lt, inb_rev in Hi || (apply rank_lt; apply -> inb_rev; exact Hi). }
  exists (firstn (Z.to_nat (itemsize k')) (skipn (Z.to_nat (itemsize k') * (if f then frank sh idx else rank sh idx)) t)). split.
  - unfold get, byte_offset_for. cbn [a_item a_off a_strides].
    replace (dot idx (if f then f_strides sh (itemsize k') else c_strides sh (itemsize k'))) with (itemsize k' * Z.of_nat (if f then frank sh idx else rank sh idx))%Z.
    + rewrite Z.add_0_l, load_at by exact HI. apply chunks_nth. exact HR.
    + destruct f; symmetry; [apply dot_f_strides_from|apply dot_c_strides].
  - rewrite firstn_length, skipn_length. nia.
Qed.
(* a hand-made header: shape (2,) with spaces, an entry that is no number dropped, a file of version 3 *)
Example C91_memory_nonvacuous : exists buf a,
  read_npy (magic ++ map byte [3; 7; 65; 0; 0; 0]%Z ++ txt " {'shape':( 2 , x, ), 'fortran_order': False, 'descr': '<i2'} ..." ++ map byte [1; 2; 3; 4; 5]%Z) = Ok (Int16, buf, a) /\
  a_shape a = [2] /\ map (get buf a) (all_idx [2]) = [Some (map byte [1; 2]%Z); Some (map byte [3; 4]%Z)].
Proof. eexists _, _. split; [vm_compute; reflexivity|]. split; vm_compute; reflexivity. Qed.
(* a header asking for 2^32 x 2^32 elements, which is 0 modulo 2^64: an array over nothing *)
Theorem C91_overflow_refuted : exists s k buf a,
  read_npy s = Ok (k, buf, a) /\ inb [0; 0] (a_shape a) /\ get buf a [0; 0] = None.
Proof.
  set (n := Z.to_nat (2 ^ 32)). assert (Hn : Z.of_nat n = (2 ^ 32)%Z) by (unfold n; rewrite Z2Nat.id; lia). clearbody n.
  assert (HF : fits [n; n]) by (repeat constructor; rewrite Hn; reflexivity).
  exists (preamble (header Float64 [n; n] false)), Float64, [], (mkArr 0 [n; n] (c_strides [n; n] 8) 8 true false).
  assert (HP : Z.of_nat (prod [n; n]) = (2 ^ 64)%Z) by (cbn [prod]; rewrite !Nat2Z.inj_mul, Hn; reflexivity).
  assert (HL : Nat.ltb 1 n = true) by (apply Nat.ltb_lt; lia).
  split; [|split].
  - rewrite <- (app_nil_r (preamble _)), read_whole; [|exact HF|apply header_short; [exact HF|reflexivity]].
    unfold read_body, usize_prod. rewrite HP. cbn [filter]. rewrite HL. reflexivity.
  - repeat constructor; lia.
  - unfold get, byte_offset_for. cbn [a_item a_off a_strides]. rewrite dot_c_strides. cbn [rank Nat.mul Nat.add]. reflexivity.
Qed.

Print Assumptions C86_roundtrip_partial.
Print Assumptions C86_stable_partial.
Print Assumptions C86_fortran_scrambled.
Print Assumptions C86_fortran_refuted.
Print Assumptions C86_strings_refuted.
Print Assumptions C87_format_partial.
Print Assumptions C92_reads.
Print Assumptions C87_aligned_partial.
Print Assumptions C87_alignment_refuted.
Print Assumptions C87_newline_refuted.
Print Assumptions C88_truncated_partial.
Print Assumptions C88_trailing_partial.
Print Assumptions C88_strings_refuted.
Print Assumptions C89_tobytes.
Print Assumptions C89_frombuffer.
Print Assumptions C89_fromfile.
Print Assumptions C89_roundtrip.
Print Assumptions C89_back.
Print Assumptions C89_leftover_refuted.
Print Assumptions C89_width_refuted.
Print Assumptions C90_archive_partial.
Print Assumptions C90_no_overwrite.
Print Assumptions C90_lookup_partial.
Print Assumptions C90_name_refuted.
Print Assumptions C90_lost_refuted.
Print Assumptions C91_memory_partial.
Print Assumptions C91_overflow_refuted.
