(* Reading a written file, in full or cut short. *)
From Coq Require Import Ascii String.
From Verif Require Import Base Lists Arr_Spec Arr_Model Arr_Wf Arr_Proofs Copy_Model Copy_Proofs.
From Verif Require Import Date_Spec Date_Model Date_Str Promo_Spec Promo_Model Gu_Model Io_Spec Io_Model Io_Proofs.
Local Open Scope nat_scope.
Local Open Scope list_scope.

Lemma trim_start_app s r : Forall (fun c => is_space c = true) s -> trim_start (s ++ r) = trim_start r.
Proof. induction 1 as [|c s H _ IH]; [reflexivity|]. cbn [app trim_start]. rewrite H. exact IH. Qed.
Lemma padding_space n : Forall (fun c => is_space c = true) (padding n).
Proof.
  destruct n as [|n]; cbn [padding]; [constructor|]. apply Forall_app. split; [|repeat constructor].
  apply Forall_forall. intros x Hx. apply repeat_spec in Hx as ->. reflexivity.
Qed.
Lemma padding_length n : List.length (padding n) = n.
Proof. destruct n as [|n]; cbn [padding]; [reflexivity|]. rewrite app_length, repeat_length. cbn. lia. Qed.

Lemma htext_ends k nums f e : exists m, htext k nums f (e ++ ["}"%char]) = "{"%char :: m ++ ["}"%char].
Proof.
  unfold htext. eexists (txt "'descr': '" ++ typestr k ++ txt "', 'fortran_order': " ++ (if f then txt "True" else txt "False") ++ txt ", 'shape': (" ++ inner nums ++ ")"%char :: e).
  change (txt "{'descr': '") with ("{"%char :: txt "'descr': '").
  cbn [app]. rewrite <- !app_assoc. reflexivity.
Qed.
Lemma trim_htext k nums f e p : Forall (fun c => is_space c = true) p -> trim (htext k nums f (e ++ ["}"%char]) ++ p) = htext k nums f (e ++ ["}"%char]).
Proof.
  intros HP. destruct (htext_ends k nums f e) as [m E]. rewrite E. unfold trim.
  replace (trim_start (("{"%char :: m ++ ["}"%char]) ++ p)) with (("{"%char :: m ++ ["}"%char]) ++ p) by reflexivity.
  rewrite rev_app_distr, trim_start_app by (apply Forall_rev, HP).
  change ("{"%char :: m ++ ["}"%char]) with (("{"%char :: m) ++ ["}"%char]). rewrite rev_app_distr. cbn [rev app].
  replace (trim_start ("}"%char :: rev m ++ ["{"%char])) with ("}"%char :: rev m ++ ["{"%char]) by reflexivity.
  cbn [rev]. rewrite rev_app_distr. cbn [rev app]. rewrite rev_involutive. reflexivity.
Qed.
Lemma parse_htext k nums sh f e p : Forall2 denotes nums sh -> fits sh -> Forall (fun c => is_space c = true) p ->
  parse_header (htext k nums f (e ++ ["}"%char]) ++ p) = Some (read_back k, sh, f).
Proof.
  intros HD HF HP. unfold parse_header. rewrite trim_htext by exact HP. rewrite htext_descr, parse_typestr, htext_order, (htext_shape k nums sh) by assumption. reflexivity.
Qed.
Lemma parse_header_ok k sh f n : fits sh -> parse_header (header k sh f ++ padding n) = Some (read_back k, sh, f).
Proof. intros HF. rewrite header_text. apply (parse_htext k (map dec sh) sh f [] (padding n) (decs_denote sh) HF (padding_space n)). Qed.

Lemma htext_ascii k nums sh f e : Forall2 denotes nums sh -> forallb is_ascii (htext k nums f e) = forallb is_ascii e.
Proof.
  intros HD. unfold htext. rewrite !forallb_app. cbn [forallb].
  assert (HT : forallb is_ascii (typestr k) = true) by (destruct k; try destruct u; reflexivity). rewrite HT.
  assert (HP : forallb is_ascii (inner nums) = true).
  { apply forallb_forall. intros c Hc. apply (inner_chars c nums sh HD) in Hc as [Hc|Hc].
    - unfold is_ascii. apply Z.ltb_lt. lia.
    - destruct Hc as [<-|[<-|[]]]; reflexivity. }
  rewrite HP. destruct f; reflexivity.
Qed.
Lemma padding_ascii n : forallb is_ascii (padding n) = true.
Proof.
  apply forallb_forall. intros c Hc. destruct n; [destruct Hc|]. cbn [padding] in Hc. apply in_app_iff in Hc as [Hc|[<-|[]]]; [|reflexivity].
  apply repeat_spec in Hc as ->. reflexivity.
Qed.
Lemma header_ascii k sh f n : forallb is_ascii (header k sh f ++ padding n) = true.
Proof. rewrite forallb_app, header_text, (htext_ascii _ _ sh) by apply decs_denote. rewrite padding_ascii. reflexivity. Qed.

(* ---- the preamble ---- *)
Definition pad_of (h : bytes) : nat := (64 - ((10 + List.length h) mod 64)) mod 64.
Definition block (h : bytes) : bytes := h ++ padding (pad_of h).
Definition wide (h : bytes) : bool := (65535 <? Z.of_nat (List.length (block h)))%Z.
Definition width (h : bytes) : nat := if wide h then 4 else 2.
Definition version (h : bytes) : bytes := if wide h then [byte 2; byte 0] else [byte 1; byte 0].
Definition len_field (h : bytes) : bytes := le_bytes (width h) (Z.of_nat (List.length (block h))).
Lemma block_length h : List.length (block h) = List.length h + pad_of h.
Proof. unfold block. rewrite app_length, padding_length. reflexivity. Qed.
Lemma preamble_eq h : preamble h = magic ++ version h ++ len_field h ++ block h.
Proof.
  unfold preamble, len_field, version, width, wide. rewrite block_length. fold (pad_of h). unfold block.
  destruct (65535 <? _)%Z; cbn [app]; reflexivity.
Qed.
Definition short (h : bytes) : Prop := (Z.of_nat (List.length h) + 64 < 2 ^ 32)%Z.
Lemma pad_small h : pad_of h < 64.
Proof. apply Nat.mod_upper_bound. lia. Qed.
Lemma len_value h : short h -> le_value (len_field h) = Z.of_nat (List.length (block h)).
Proof.
  intros HS. apply le_value_bytes. pose proof (pad_small h). unfold short in HS. unfold width, wide. rewrite block_length.
  destruct (Z.ltb_spec 65535 (Z.of_nat (List.length h + pad_of h))).
  - change (256 ^ Z.of_nat 4)%Z with (2 ^ 32)%Z. lia.
  - change (256 ^ Z.of_nat 2)%Z with 65536%Z. lia.
Qed.
Lemma version_length h : List.length (version h) = 2.
Proof. unfold version. destruct (wide h); reflexivity. Qed.
Lemma len_field_length h : List.length (len_field h) = width h.
Proof. apply le_bytes_length. Qed.

Lemma take_app n a b : List.length a = n -> take n (a ++ b) = Some (a, b).
Proof.
  intros H. unfold take. rewrite app_length. destruct (Nat.leb_spec n (List.length a + List.length b)); [|lia].
  destruct (cut_app n a b H) as [-> ->]. reflexivity.
Qed.
Lemma take_short n s : List.length s < n -> take n s = None.
Proof. intros H. unfold take. destruct (Nat.leb_spec n (List.length s)); [lia|reflexivity]. Qed.
Lemma firstn_over {A} (a b : list A) n : List.length a <= n -> firstn n (a ++ b) = a ++ firstn (n - List.length a) b.
Proof. intros H. rewrite firstn_app, firstn_all2 by exact H. reflexivity. Qed.
Lemma firstn_under {A} (a b : list A) n : n <= List.length a -> firstn n (a ++ b) = firstn n a.
Proof. intros H. rewrite firstn_app. replace (n - List.length a) with 0 by lia. rewrite firstn_O, app_nil_r. reflexivity. Qed.

(* what remains after magic, version and length *)
Definition read_rest (len : Z) (s : bytes) : res (kind * list bytes * arr) :=
  if (Z.of_nat (List.length s) <? len)%Z then Err else
  let n := Z.to_nat len in
  let h := firstn n s in
  if negb (forallb is_ascii h) then Err else
  match parse_header h with
  | None => Err
  | Some (k, sh, f) => read_body k sh f (skipn n s)
  end.
Lemma read_start h s : short h -> read_npy (magic ++ version h ++ len_field h ++ s) = read_rest (Z.of_nat (List.length (block h))) s.
Proof.
  intros HS. unfold read_npy. rewrite take_app by reflexivity.
  replace (chars_eqb magic (byte 147 :: txt "NUMPY")) with true by reflexivity. cbn [negb].
  rewrite take_app by apply version_length.
  replace (if (value (hd (byte 0) (version h)) =? 1)%Z then Some 2 else if (2 <=? value (hd (byte 0) (version h)))%Z then Some 4 else None)
    with (Some (width h)) by (unfold version, width; destruct (wide h); reflexivity).
  rewrite take_app by apply len_field_length. rewrite len_value by exact HS. reflexivity.
Qed.
Lemma read_rest_ok k sh f s : fits sh ->
  read_rest (Z.of_nat (List.length (block (header k sh f)))) (block (header k sh f) ++ s) = read_body (read_back k) sh f s.
Proof.
  intros HF. unfold read_rest. rewrite app_length. set (h := header k sh f).
  destruct (Z.ltb_spec (Z.of_nat (List.length (block h) + List.length s)) (Z.of_nat (List.length (block h)))); [lia|].
  rewrite Nat2Z.id. destruct (cut_app _ (block h) s eq_refl) as [-> ->].
  unfold block, h. rewrite header_ascii, parse_header_ok by exact HF. reflexivity.
Qed.
Lemma read_whole k sh f s : fits sh -> short (header k sh f) ->
  read_npy (preamble (header k sh f) ++ s) = read_body (read_back k) sh f s.
Proof.
  intros HF HS. rewrite preamble_eq, <- !app_assoc. rewrite read_start by exact HS. apply read_rest_ok. exact HF.
Qed.
(* a preamble cut anywhere is rejected *)
Lemma read_cut h n : short h -> n < List.length (preamble h) -> read_npy (firstn n (preamble h)) = Err.
Proof.
  intros HS. rewrite preamble_eq, !app_length, version_length, len_field_length. change (List.length magic) with 6. intros HN.
  destruct (le_lt_dec 6 n) as [L|L].
  2: { unfold read_npy. rewrite take_short; [reflexivity|]. rewrite firstn_length. lia. }
  rewrite firstn_over by exact L. change (List.length magic) with 6.
  destruct (le_lt_dec 2 (n - 6)) as [L2|L2].
  2: { unfold read_npy. rewrite take_app by reflexivity. replace (chars_eqb magic (byte 147 :: txt "NUMPY")) with true by reflexivity. cbn [negb].
       rewrite take_short; [reflexivity|]. rewrite firstn_length. lia. }
  rewrite firstn_over by (rewrite version_length; exact L2). rewrite version_length.
  destruct (le_lt_dec (width h) (n - 6 - 2)) as [L3|L3].
  2: { unfold read_npy. rewrite take_app by reflexivity. replace (chars_eqb magic (byte 147 :: txt "NUMPY")) with true by reflexivity. cbn [negb].
       rewrite take_app by apply version_length.
       replace (if (value (hd (byte 0) (version h)) =? 1)%Z then Some 2 else if (2 <=? value (hd (byte 0) (version h)))%Z then Some 4 else None)
         with (Some (width h)) by (unfold version, width; destruct (wide h); reflexivity).
       rewrite take_short; [reflexivity|]. rewrite firstn_length. lia. }
  rewrite firstn_over by (rewrite len_field_length; exact L3). rewrite len_field_length.
  rewrite read_start by exact HS. unfold read_rest. rewrite firstn_length.
  destruct (Z.ltb_spec (Z.of_nat (Nat.min (n - 6 - 2 - width h) (List.length (block h)))) (Z.of_nat (List.length (block h)))); [reflexivity|lia].
Qed.

(* the length of the header of a shape of usize lengths *)
Lemma join_length sep l m : Forall (fun x => List.length x <= m) l -> List.length (join sep l) <= (List.length sep + m) * List.length l.
Proof.
  intros H. destruct H as [|x l Hx Hl]; cbn [join List.length]; [lia|]. rewrite app_length.
  assert (List.length (concat (map (fun y => sep ++ y) l)) <= (List.length sep + m) * List.length l); [|nia].
  induction Hl as [|y l Hy _ IH]; cbn [map concat List.length]; [lia|]. rewrite !app_length. nia.
Qed.
Lemma header_length k sh f : fits sh -> List.length (header k sh f) <= 71 + 22 * List.length sh.
Proof.
  intros HF. unfold header, shape_str. rewrite !app_length.
  assert (HT : List.length (typestr k) <= 7) by (destruct k; try destruct u; cbn; lia).
  assert (HJ : List.length (join (txt ", ") (map dec sh)) <= 22 * List.length sh).
  { etransitivity; [apply (join_length _ _ 20)|rewrite map_length; cbn; lia].
    apply Forall_forall. intros x Hx. apply in_map_iff in Hx as (d & <- & Hd). destruct (dec_spec d) as (_ & _ & _ & HK). apply HK; [lia|].
    unfold fits in HF. rewrite Forall_forall in HF. specialize (HF d Hd). change (10 ^ Z.of_nat 20)%Z with 100000000000000000000%Z. lia. }
  change (map (fun d => digits (Z.of_nat d)) sh) with (map dec sh).
  assert (HB : List.length (if Nat.eqb (List.length sh) 1 then txt "," else []) <= 1) by (destruct (Nat.eqb _ 1); cbn; lia).
  assert (HV : List.length (if f then txt "True" else txt "False") <= 5) by (destruct f; cbn; lia).
  repeat match goal with |- context [List.length (txt ?s)] => let n := eval compute in (List.length (txt s)) in change (List.length (txt s)) with n end. lia.
Qed.
Lemma header_short k sh f : fits sh -> (Z.of_nat (List.length sh) < 2 ^ 27)%Z -> short (header k sh f).
Proof. intros HF HN. unfold short. pose proof (header_length k sh f HF). lia. Qed.

(* ---- the data ---- *)
Lemma chunks_get vals sh item f idx r : (0 < item)%Z -> sized (Z.to_nat item) vals -> List.length vals = prod sh -> inb idx sh ->
  get (chunks (prod sh) (Z.to_nat item) (concat vals ++ r))
    (mkArr 0 sh (if f : bool then f_strides sh item else c_strides sh item) item (negb f)
       (f || Nat.leb (List.length (filter (fun d => Nat.ltb 1 d) sh)) 1)) idx
  = nth_error vals (if f then cm_rank sh idx else rm_rank sh idx).
Proof.
  intros HI HS HL Hi. rewrite <- HL, chunks_concat by exact HS. unfold get, byte_offset_for. cbn [a_item a_off a_strides].
  change cm_rank with frank. change rm_rank with rank.
  destruct f.
  - unfold f_strides. rewrite dot_f_strides_from, Z.add_0_l. apply load_at. exact HI.
  - rewrite dot_c_strides, Z.add_0_l. apply load_at. exact HI.
Qed.
Lemma body_ok k sh f vals r : (0 < itemsize k)%Z -> (Z.of_nat (prod sh) * itemsize k < 2 ^ 63)%Z -> sized (Z.to_nat (itemsize k)) vals -> List.length vals = prod sh ->
  read_body k sh f (concat vals ++ r) = Ok (k, chunks (prod sh) (Z.to_nat (itemsize k)) (concat vals ++ r),
     mkArr 0 sh (if f then f_strides sh (itemsize k) else c_strides sh (itemsize k)) (itemsize k) (negb f)
       (f || Nat.leb (List.length (filter (fun d => Nat.ltb 1 d) sh)) 1)).
Proof.
  intros HI HB HS HL. unfold read_body, usize_prod, wrap_usize, two64.
  rewrite (Z.mod_small (Z.of_nat (prod sh))) by nia. rewrite Z.mod_small by nia.
  destruct (Z.leb_spec (2 ^ 63) (Z.of_nat (prod sh) * itemsize k)); [lia|].
  rewrite app_length, (concat_len (Z.to_nat (itemsize k))) by exact HS.
  destruct (Z.ltb_spec (Z.of_nat (Z.to_nat (itemsize k) * List.length vals + List.length r)) (Z.of_nat (prod sh) * itemsize k)); [nia|].
  rewrite Z.div_mul by lia. rewrite Nat2Z.id. reflexivity.
Qed.
Lemma body_cut k sh f s : (0 < itemsize k)%Z -> (Z.of_nat (prod sh) * itemsize k < 2 ^ 63)%Z ->
  (Z.of_nat (List.length s) < Z.of_nat (prod sh) * itemsize k)%Z -> read_body k sh f s = Err.
Proof.
  intros HI HB HS. unfold read_body, usize_prod, wrap_usize, two64.
  rewrite (Z.mod_small (Z.of_nat (prod sh))) by nia. rewrite Z.mod_small by nia.
  destruct (Z.leb_spec (2 ^ 63) (Z.of_nat (prod sh) * itemsize k)); [lia|].
  destruct (Z.ltb_spec (Z.of_nat (List.length s)) (Z.of_nat (prod sh) * itemsize k)); [reflexivity|lia].
Qed.
Lemma read_back_id k : not_string k = true -> read_back k = k.
Proof. destruct k; cbn; congruence. Qed.
Lemma itemsize_pos k : not_string k = true -> (0 < itemsize k)%Z.
Proof. destruct k; cbn; congruence || lia. Qed.
