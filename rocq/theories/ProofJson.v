(** json.load reads back what json.dump wrote. *)
From Coq Require Decimal DecimalString DecimalPos DecimalZ.
From Coq Require Import ZArith Bool String Ascii List Lia.
Import DecimalString.
From Flocq Require Import IEEE754.BinarySingleNaN.
From Verif Require Import Num F64 Py Json SpecSave.
Import ListNotations.
Open Scope Z_scope.
Open Scope char_scope.

Definition number_text (frepr : f64 -> text) (fread : text -> option f64) : Prop :=
  forall x, is_finite x = true -> fread (frepr x) = Some x /\ forallb numchar (frepr x) = true /\ existsb floatchar (frepr x) = true.
Lemma float_number frepr fread : float_text frepr fread -> number_text frepr fread.
Proof.
  intros H x F. destruct (H x F) as (A & B & C). split; [exact A|]. split.
  - apply forallb_forall. intros c I. rewrite Forall_forall in B. specialize (B c I). assert (Q : forallb numchar (txt "0123456789+-.e") = true) by reflexivity. rewrite forallb_forall in Q. exact (Q c B).
  - apply existsb_exists. destruct C as [C|C]; [exists "."%char | exists "e"%char]; (split; [exact C | reflexivity]).
Qed.
(** Objects that json can write; keys without quotation marks. *)
Definition json_scalar (v : pyv) : Prop := match v with PNumpy _ => False | _ => True end.
Definition plain (k : string) : Prop := forallb (fun c => negb (Ascii.eqb c """")) (txt k) = true.

Definition delim (r : text) : Prop := match r with [] => True | c :: _ => c = "," \/ c = "]" \/ c = "}" end.
Lemma delim_not_num r : delim r -> span numchar r = ([], r).
Proof. destruct r as [|c r]; [reflexivity|]. intros [-> | [-> | ->]]; reflexivity. Qed.
Lemma span_app f t r : forallb f t = true -> span f r = ([], r) -> span f (t ++ r) = (t, r).
Proof.
  intros H R. induction t as [|c t IH]; [exact R|]. cbn [forallb] in H. apply andb_true_iff in H as (Hc & Ht). cbn [app span]. rewrite Hc, (IH Ht). reflexivity.
Qed.

Section RT.
Variables (frepr : f64 -> text) (fread : text -> option f64).
Hypothesis FT : number_text frepr fread.

(** Decimal integers. *)
Lemma uint_chars d : forallb numchar (txt (NilEmpty.string_of_uint d)) = true /\ existsb floatchar (txt (NilEmpty.string_of_uint d)) = false.
Proof. induction d; cbn; auto. Qed.
Lemma uint_chars0 d : forallb numchar (txt (NilZero.string_of_uint d)) = true /\ existsb floatchar (txt (NilZero.string_of_uint d)) = false.
Proof. destruct d; try apply uint_chars; split; reflexivity. Qed.
Lemma int_chars z : forallb numchar (show_int z) = true /\ existsb floatchar (show_int z) = false.
Proof.
  unfold show_int. destruct (Z.to_int z) as [d|d]; cbn [NilZero.string_of_int]; [apply uint_chars0|]. destruct (uint_chars0 d) as (A & B). unfold txt in *. cbn [list_ascii_of_string forallb existsb]. rewrite A, B. split; reflexivity.
Qed.
Lemma to_int_isi z : NilZero.int_of_string (NilZero.string_of_int (Z.to_int z)) = Some (Z.to_int z).
Proof.
  apply NilZero.isi; destruct z as [|p|p]; cbn; try discriminate; intros E; injection E as E; exact (DecimalPos.Unsigned.to_uint_nonnil p E).
Qed.
Lemma read_int z : read_number fread (show_int z) = Some (PInt z).
Proof.
  unfold read_number. rewrite (proj2 (int_chars z)). unfold show_int, txt. rewrite string_of_list_ascii_of_string, to_int_isi. cbn. rewrite DecimalZ.of_to. reflexivity.
Qed.
Lemma show_int_nonnil z : show_int z <> [].
Proof. unfold show_int. destruct (Z.to_int z) as [d|d]; destruct d; discriminate. Qed.

Lemma strip_head c p a t : numchar a = true -> numchar c = false -> strip (c :: p) (a :: t) = None.
Proof. intros Ha Hc. cbn [strip]. destruct (Ascii.eqb c a) eqn:E; [|reflexivity]. apply Ascii.eqb_eq in E. congruence. Qed.
Lemma read_token t r v : forallb numchar t = true -> t <> [] -> delim r -> read_number fread t = Some v -> read_scalar fread (t ++ r) = Some (v, r).
Proof.
  intros H NE D E. unfold read_scalar. destruct t as [|a t]; [contradiction|]. pose proof H as H0. cbn [forallb] in H. apply andb_true_iff in H as (Ha & Ht). cbn [app].
  change (txt "null") with ("n" :: txt "ull"). change (txt "NaN") with ("N" :: txt "aN"). change (txt "Infinity") with ("I" :: txt "nfinity").
  rewrite !strip_head by (exact Ha || reflexivity).
  assert (S : strip (txt "-Infinity") (a :: t ++ r) = None).
  { change (txt "-Infinity") with ("-" :: "I" :: txt "nfinity"). cbn [strip]. destruct (Ascii.eqb "-" a); [|reflexivity]. destruct t as [|b t]; cbn [app].
    - destruct r as [|c r]; [reflexivity|]. destruct D as [-> | [-> | ->]]; reflexivity.
    - cbn [forallb] in Ht. apply andb_true_iff in Ht as (Hb & _). destruct (Ascii.eqb "I" b) eqn:Q; [|reflexivity]. apply Ascii.eqb_eq in Q. subst b. discriminate. }
  rewrite S. change (a :: t ++ r) with ((a :: t) ++ r). rewrite (span_app numchar (a :: t) r H0 (delim_not_num r D)), E. reflexivity.
Qed.
Lemma scalar_ok v t r : show_scalar frepr v = Ok t -> delim r -> read_scalar fread (t ++ r) = Some (v, r).
Proof.
  intros H D. destruct v as [|z|x|x]; [injection H as <-; reflexivity| | |discriminate].
  - injection H as <-. apply read_token; [apply int_chars | apply show_int_nonnil | exact D | apply read_int].
  - injection H as <-. assert (FIN : is_finite x = true -> show_float frepr x = frepr x -> read_scalar fread (show_float frepr x ++ r) = Some (PFloat x, r)).
    { intros F ->. destruct (FT x F) as (A & B & C). apply read_token; [exact B | | exact D | unfold read_number; rewrite C, A; reflexivity]. intros E0. rewrite E0 in C. discriminate. }
    destruct x as [s|[|]| |s m e He]; try reflexivity; apply FIN; reflexivity.
Qed.

(** Blocks. *)
Definition reads_back {A} (show : A -> res text) (read : text -> option (A * text)) : Prop :=
  forall a t r, show a = Ok t -> delim r -> read (t ++ r) = Some (a, r).
(** No item begins with a closing bracket. *)
Definition opens {A} (show : A -> res text) : Prop := forall a t, show a = Ok t -> match t with c :: _ => c <> "]" /\ c <> "}" | [] => False end.
Lemma mapM_cons_ok {A B} (f : A -> res B) a l ts : mapM f (a :: l) = Ok ts -> exists t r, f a = Ok t /\ mapM f l = Ok r /\ ts = t :: r.
Proof. cbn [mapM]. intros H. destruct (f a) as [t|]; [|discriminate]. cbn in H. destruct (mapM f l) as [r|]; [|discriminate]. injection H as <-. eauto. Qed.
Lemma items_ok {A} (show : A -> res text) (read : text -> option (A * text)) close : close = "]" \/ close = "}" -> reads_back show read -> forall l ts fuel r,
  l <> [] -> mapM show l = Ok ts -> (length l <= fuel)%nat -> read_items read close fuel (join ts ++ close :: r) = Some (l, r).
Proof.
  intros CL RB. assert (CC : Ascii.eqb "," close = false) by (destruct CL as [-> | ->]; reflexivity).
  induction l as [|a l IH]; intros ts fuel r NE M F; [contradiction|]. destruct (mapM_cons_ok show a l ts M) as (t & tr & Ea & Er & ->). destruct fuel as [|fuel]; [cbn in F; lia|].
  destruct l as [|b l].
  - cbn in Er. injection Er as <-. cbn [join read_items]. rewrite (RB a t (close :: r) Ea) by (cbn; intuition). rewrite Ascii.eqb_refl. reflexivity.
  - destruct (mapM_cons_ok show b l tr Er) as (t2 & tr2 & _ & _ & ->). change (join (t :: t2 :: tr2)) with (t ++ "," :: " " :: join (t2 :: tr2)). rewrite <- app_assoc. cbn [app read_items]. rewrite (RB a t _ Ea) by (cbn; auto). rewrite CC, Ascii.eqb_refl.
    rewrite (IH (t2 :: tr2) fuel r); [reflexivity | discriminate | exact Er | cbn [length] in *; lia].
Qed.
Lemma join_length ts : (2 * length ts <= 2 + length (join ts))%nat.
Proof.
  induction ts as [|a ts IH]; [cbn; lia|]. destruct ts as [|b ts]; [cbn; lia|]. change (join (a :: b :: ts)) with (a ++ "," :: " " :: join (b :: ts)). rewrite app_length. cbn [length] in *. lia.
Qed.
Lemma block_fuel (ts : list text) (o c : ascii) r : (length ts <= length (o :: join ts ++ c :: r))%nat.
Proof. pose proof (join_length ts) as J. cbn [length]. rewrite app_length. cbn [length]. lia. Qed.
Lemma mapM_len {A B} (f : A -> res B) l : forall ts, mapM f l = Ok ts -> length ts = length l.
Proof. induction l as [|a l IH]; intros ts H; [injection H as <-; reflexivity|]. destruct (mapM_cons_ok f a l ts H) as (t & r & _ & E & ->). cbn. f_equal. auto. Qed.
Lemma block_ok {A} (show : A -> res text) (read : text -> option (A * text)) o close l ts r : close = "]" \/ close = "}" -> reads_back show read -> opens show -> mapM show l = Ok ts ->
  read_block read o close (o :: join ts ++ close :: r) = Some (l, r).
Proof.
  intros CL RB OP M. unfold read_block. rewrite Ascii.eqb_refl. destruct l as [|a l].
  - injection M as <-. cbn [join app]. rewrite Ascii.eqb_refl. reflexivity.
  - pose proof M as M0. destruct (mapM_cons_ok show a l ts M) as (t & tr & Ea & Er & ->). pose proof (OP a t Ea) as O. destruct t as [|c t]; [contradiction|].
    match goal with |- match ?X with _ => _ end = _ => assert (E : exists rest, X = c :: rest) by (destruct tr; cbn; eauto) end. destruct E as (rest & E). rewrite E.
    assert (N : Ascii.eqb c close = false) by (apply Ascii.eqb_neq; destruct O as (O1 & O2); destruct CL as [-> | ->]; assumption). rewrite N, <- E. clear E N.
    apply (items_ok show read close CL RB); [discriminate | exact M0|]. rewrite <- (mapM_len show (a :: l) _ M0). apply block_fuel.
Qed.
Lemma list_ok {A} (show : A -> res text) (read : text -> option (A * text)) : reads_back show read -> opens show -> reads_back (show_list show) (read_list read).
Proof.
  intros RB OP l t r H D. unfold show_list in H. destruct (mapM show l) as [ts|] eqn:M; [|discriminate]. injection H as <-. unfold read_list. cbn [app]. rewrite <- app_assoc. apply (block_ok show); auto.
Qed.
Lemma list_opens {A} (show : A -> res text) : opens (show_list show).
Proof. intros l t H. unfold show_list in H. destruct (mapM show l); [|discriminate]. injection H as <-. split; discriminate. Qed.
Lemma num_opens a : numchar a = true -> a <> "]" /\ a <> "}".
Proof. intros H. split; intros ->; discriminate. Qed.
Lemma scalar_opens : opens (show_scalar frepr).
Proof.
  intros v t H. destruct v as [|z|x|x]; [injection H as <-; split; discriminate| | |discriminate].
  - injection H as <-. pose proof (int_chars z) as (A & _). pose proof (show_int_nonnil z). destruct (show_int z) as [|c l]; [contradiction|]. cbn [forallb] in A. apply andb_true_iff in A as (A & _). apply num_opens, A.
  - injection H as <-. assert (FIN : is_finite x = true -> match frepr x with c :: _ => c <> "]" /\ c <> "}" | [] => False end).
    { intros F. destruct (FT x F) as (_ & B & C). destruct (frepr x) as [|c l]; [discriminate|]. cbn [forallb] in B. apply andb_true_iff in B as (B & _). apply num_opens, B. }
    destruct x as [s|[|]| |s m e He]; try (split; discriminate); apply FIN; reflexivity.
Qed.
Lemma entry_ok kv t r : plain (fst kv) -> show_entry frepr kv = Ok t -> delim r -> read_entry fread (t ++ r) = Some (kv, r).
Proof.
  destruct kv as (k & v). cbn [fst]. intros PL H D. unfold show_entry in H. cbn [fst snd] in H. destruct (show_list (show_list (show_scalar frepr)) v) as [tv|] eqn:E; [|discriminate]. injection H as <-.
  unfold quote, read_entry. cbn [app]. rewrite <- !app_assoc. cbn [app]. rewrite (span_app _ (txt k)); [|exact PL | reflexivity].
  rewrite (list_ok (show_list (show_scalar frepr)) (read_list (read_scalar fread)) (list_ok _ _ scalar_ok scalar_opens) (list_opens _) v tv r E D). unfold txt. rewrite string_of_list_ascii_of_string. reflexivity.
Qed.

Theorem load_dump d t : Forall (fun kv => plain (fst kv)) d -> json_dump frepr d = Ok t -> json_load fread t = Ok d.
Proof.
  intros PL H. unfold json_dump in H. destruct (mapM (show_entry frepr) d) as [ts|] eqn:M; [|discriminate]. injection H as <-.
  (* restrict show to plain keys *)
  set (show := fun kv => if forallb (fun c => negb (Ascii.eqb c """")) (txt (fst kv)) then show_entry frepr kv else Err TypeError).
  assert (M' : mapM show d = Ok ts).
  { rewrite <- M. clear M. induction PL as [|kv d P PL IH]; [reflexivity|]. cbn [mapM]. unfold show at 1. unfold plain in P. rewrite P. destruct (show_entry frepr kv); [|reflexivity]. cbn. rewrite IH. reflexivity. }
  unfold json_load. rewrite (block_ok show (read_entry fread) "{" "}" d ts []); [reflexivity | auto | | | exact M'].
  - intros kv t r. unfold show. destruct (forallb _ (txt (fst kv))) eqn:P; [|discriminate]. apply entry_ok, P.
  - intros kv t. unfold show. destruct (forallb _ (txt (fst kv))); [|discriminate]. unfold show_entry. destruct (show_list _ _); [|discriminate]. intros H. injection H as <-. split; discriminate.
Qed.

Lemma mapM_total {A B} (f : A -> res B) l : (forall a, In a l -> exists b, f a = Ok b) -> exists ts, mapM f l = Ok ts.
Proof.
  induction l as [|a l IH]; intros H; [exists []; reflexivity|]. destruct (H a (or_introl eq_refl)) as (b & E). destruct IH as (ts & E2); [intros; apply H; right; assumption|]. exists (b :: ts). cbn [mapM]. rewrite E, E2. reflexivity.
Qed.
Theorem dump_total d : (forall k ll l v, In (k, ll) d -> In l ll -> In v l -> json_scalar v) -> exists t, json_dump frepr d = Ok t.
Proof.
  intros H. unfold json_dump. destruct (mapM_total (show_entry frepr) d) as (ts & ->); [|cbn; eauto]. intros (k & ll) I1. unfold show_entry, show_list at 1. cbn [fst snd].
  destruct (mapM_total (show_list (show_scalar frepr)) ll) as (ts & ->); [|cbn; eauto]. intros l I2. unfold show_list. destruct (mapM_total (show_scalar frepr) l) as (ts & ->); [|cbn; eauto].
  intros v I3. pose proof (H k ll l v I1 I2 I3). destruct v; cbn in *; [eauto | eauto | eauto | contradiction].
Qed.
Lemma mapM_fails {A B} (f : A -> res B) l : (forall a, In a l -> (exists b, f a = Ok b) \/ f a = Err TypeError) -> (exists a, In a l /\ f a = Err TypeError) -> mapM f l = Err TypeError.
Proof.
  induction l as [|a l IH]; intros H (b & I & E); [contradiction|]. cbn [mapM]. destruct (f a) as [t|e] eqn:Ea.
  - destruct I as [->|I]; [congruence|]. cbn. rewrite IH; [reflexivity | intros; apply H; right; assumption | eauto].
  - destruct (H a (or_introl eq_refl)) as [(c & Q)|Q]; [congruence|]. rewrite Ea in Q. injection Q as ->. reflexivity.
Qed.
Lemma mapM_alt {A B} (f : A -> res B) l : (forall a, In a l -> (exists b, f a = Ok b) \/ f a = Err TypeError) -> (exists b, mapM f l = Ok b) \/ mapM f l = Err TypeError.
Proof.
  induction l as [|a l IH]; intros H; [left; exists []; reflexivity|]. cbn [mapM]. destruct (H a (or_introl eq_refl)) as [(b & ->)| ->]; [|right; reflexivity].
  destruct IH as [(c & ->)| ->]; [intros; apply H; right; assumption | left; cbn; eauto | right; reflexivity].
Qed.
Lemma scalar_alt v : (exists b, show_scalar frepr v = Ok b) \/ show_scalar frepr v = Err TypeError.
Proof. destruct v; cbn; eauto. Qed.
Lemma list_alt {A} (f : A -> res text) (l : list A) : (forall a, (exists b, f a = Ok b) \/ f a = Err TypeError) -> (exists b, show_list f l = Ok b) \/ show_list f l = Err TypeError.
Proof. intros H. unfold show_list. destruct (mapM_alt f l) as [(b & ->)| ->]; [intros; apply H | left; cbn; eauto | right; reflexivity]. Qed.
Theorem dump_fails d k ll l v : In (k, ll) d -> In l ll -> In v l -> ~ json_scalar v -> json_dump frepr d = Err TypeError.
Proof.
  intros I1 I2 I3 NJ. unfold json_dump. rewrite (mapM_fails (show_entry frepr) d); [reflexivity| |].
  - intros kv _. unfold show_entry. destruct (list_alt (show_list (show_scalar frepr)) (snd kv)) as [(b & ->)| ->]; [|left; cbn; eauto | right; reflexivity]. intros a. apply list_alt, scalar_alt.
  - exists (k, ll). split; [exact I1|]. unfold show_entry, show_list at 1. cbn [fst snd]. rewrite (mapM_fails (show_list (show_scalar frepr)) ll); [reflexivity | intros; apply list_alt, scalar_alt|].
    exists l. split; [exact I2|]. unfold show_list. rewrite (mapM_fails (show_scalar frepr) l); [reflexivity | intros; apply scalar_alt|]. exists v. split; [exact I3|]. destruct v; cbn in *; [destruct NJ; exact I | destruct NJ; exact I | destruct NJ; exact I | reflexivity].
Qed.
End RT.
