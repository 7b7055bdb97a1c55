(** What storing Python objects as JSON should do. *)
From Coq Require Import ZArith NArith List Ascii String Bool.
From Verif Require Import Base Str Numerals_Model Types_Model IO_Model Json_Model.
Import ListNotations.
Open Scope list_scope.

(** The literals of floats: digits with a fraction, an exponent or both. *)
Definition decimal (s : str) : Prop := s <> [] /\ forall c, In c s -> (48 <= N_of_ascii c <= 57)%N.
Definition integer_text (s : str) : Prop := decimal s /\ (s = $"0" \/ forall r, s <> "0"%char :: r).
Definition float_text (s : str) : Prop :=
  exists sign i f e, s = sign ++ i ++ f ++ e /\ (sign = [] \/ sign = $"-") /\ integer_text i /\
    (f = [] \/ exists d, f = "."%char :: d /\ decimal d) /\
    (e = [] \/ exists c g d, e = c :: g ++ d /\ (c = "e" \/ c = "E")%char /\
                             (g = [] \/ g = $"+" \/ g = $"-") /\ decimal d) /\
    (f <> [] \/ e <> []).

(** Python's floats: reading what [repr] writes gives the same float; there is one float of each
    name. *)
Definition float_laws (fl : floats) : Prop :=
  forall x, match kind fl x with
            | Finite repr => float_text repr /\ of_text fl repr = x
            | NotANumber => x = nan fl
            | PosInf => x = inf fl
            | NegInf => x = neg_inf fl
            end.

Definition floats_inhabited (fl : floats) : Prop := inhabited (F fl).

(** Strings: code points of Unicode. A high surrogate followed by a low one is read as one
    character. *)
Definition high (n : N) : Prop := (55296 <= n <= 56319)%N.
Definition low (n : N) : Prop := (56320 <= n <= 57343)%N.
Definition unicode (s : text) : Prop := forall c, In c s -> (c < 1114112)%N.
Definition unpaired (s : text) : Prop := forall a h l b, s = a ++ h :: l :: b -> high h -> low l -> False.

(** All strings anywhere in an object. *)
Inductive all_texts {fl} (P : text -> Prop) : value fl -> Prop :=
| at_none : all_texts P VNone
| at_bool : forall b, all_texts P (VBool b)
| at_int : forall z, all_texts P (VInt z)
| at_float : forall x, all_texts P (VFloat x)
| at_text : forall s, P s -> all_texts P (VText s)
| at_list : forall l, (forall x, In x l -> all_texts P x) -> all_texts P (VList l)
| at_tuple : forall l, (forall x, In x l -> all_texts P x) -> all_texts P (VTuple l)
| at_dict : forall kvs, (forall k x, In (k, x) kvs -> all_texts P k /\ all_texts P x) -> all_texts P (VDict kvs)
| at_set : forall b l, (forall x, In x l -> all_texts P x) -> all_texts P (VSet b l)
| at_bytes : forall b, all_texts P (VBytes b)
| at_date : forall y m d, all_texts P (VDate y m d)
| at_datetime : forall s, all_texts P (VDatetime s).

(** What JSON can say: None, booleans, numbers, strings, lists and dicts from strings. *)
Inductive faithful {fl} : value fl -> Prop :=
| ff_none : faithful VNone
| ff_bool : forall b, faithful (VBool b)
| ff_int : forall z, faithful (VInt z)
| ff_float : forall x, faithful (VFloat x)
| ff_text : forall s, unpaired s -> faithful (VText s)
| ff_list : forall l, (forall x, In x l -> faithful x) -> faithful (VList l)
| ff_dict : forall kvs, NoDup (map fst kvs) ->
    (forall k x, In (k, x) kvs -> (exists s, k = VText s /\ unpaired s) /\ faithful x) -> faithful (VDict kvs).

(** The text that is written for a key: None, booleans and numbers as they would be written as values. *)
Inductive key_as {fl} : value fl -> text -> Prop :=
| ka_text : forall s, key_as (VText s) s
| ka_none : key_as VNone (of_str $"null")
| ka_true : key_as (VBool true) (of_str $"true")
| ka_false : key_as (VBool false) (of_str $"false")
| ka_int : forall z, key_as (VInt z) (of_str (py_str z))
| ka_float : forall x repr, kind fl x = Finite repr -> key_as (VFloat x) (of_str repr)
| ka_nan : forall x, kind fl x = NotANumber -> key_as (VFloat x) (of_str $"NaN")
| ka_inf : forall x, kind fl x = PosInf -> key_as (VFloat x) (of_str $"Infinity")
| ka_neg_inf : forall x, kind fl x = NegInf -> key_as (VFloat x) (of_str $"-Infinity").

(** What can be written: also tuples, and other keys. *)
Inductive encodable {fl} : value fl -> Prop :=
| en_none : encodable VNone
| en_bool : forall b, encodable (VBool b)
| en_int : forall z, encodable (VInt z)
| en_float : forall x, encodable (VFloat x)
| en_text : forall s, encodable (VText s)
| en_list : forall l, (forall x, In x l -> encodable x) -> encodable (VList l)
| en_tuple : forall l, (forall x, In x l -> encodable x) -> encodable (VTuple l)
| en_dict : forall kvs, (forall k x, In (k, x) kvs -> exists s, key_as k s) -> (forall k x, In (k, x) kvs -> encodable x) ->
    encodable (VDict kvs).

(** What is read for what was written: surrogates that met are one character, tuples are lists,
    keys are strings; of several entries with the same key the last value is kept, at the place
    of the first. *)
Fixpoint joined (s : text) : text :=
  match s with
  | h :: (l :: s') as rest =>
      if ((55296 <=? h) && (h <=? 56319) && (56320 <=? l) && (l <=? 57343))%N
      then (65536 + (h - 55296) * 1024 + (l - 56320))%N :: joined s' else h :: joined rest
  | _ => s
  end.
Inductive reads_as {fl} : value fl -> value fl -> Prop :=
| ra_none : reads_as VNone VNone
| ra_bool : forall b, reads_as (VBool b) (VBool b)
| ra_int : forall z, reads_as (VInt z) (VInt z)
| ra_float : forall x, reads_as (VFloat x) (VFloat x)
| ra_text : forall s, reads_as (VText s) (VText (joined s))
| ra_list : forall l l', Forall2 reads_as l l' -> reads_as (VList l) (VList l')
| ra_tuple : forall l l', Forall2 reads_as l l' -> reads_as (VTuple l) (VList l')
| ra_dict : forall kvs pairs,
    Forall2 (fun kx py => key_as (fst kx) (fst py) /\ reads_as (snd kx) (snd py)) kvs pairs ->
    reads_as (VDict kvs)
      (VDict (map (fun py => (VText (fst py), snd py)) (dict_of text_eqb (map (fun py => (joined (fst py), snd py)) pairs)))).

(** The objects of a type, as the hints of types/python.py say. *)
Inductive instance {fl} : ty -> value fl -> Prop :=
| inst_null : forall t, is_nullable t = true -> instance t VNone
| inst_none : forall m, instance (Scalar Null m) VNone
| inst_boolean : forall m b, instance (Scalar Boolean m) (VBool b)
| inst_int : forall w m z, instance (Scalar (Int w) m) (VInt z)
| inst_float : forall w m x, instance (Scalar (Float w) m) (VFloat x)
| inst_string : forall m s, instance (Scalar String m) (VText s)
| inst_date : forall m y mo d, instance (Scalar Date m) (VDate y mo d)
| inst_binary : forall n m b, instance (Binary n m) (VBytes b)
| inst_timestamp : forall p m s, instance (Timestamp p m) (VDatetime s)
| inst_enum : forall n t items m v, instance t v -> instance (Enum n t items m) v
| inst_list : forall e m l, (forall x, In x l -> instance e x) -> instance (List e m) (VList l)
| inst_collection : forall n e p c m l, (forall x, In x l -> instance e x) -> instance (Collection n e p c m) (VList l)
| inst_set : forall e m b l, (forall x, In x l -> instance e x) -> instance (Set_ e m) (VSet b l)
| inst_map : forall kt t m kvs, NoDup (map fst kvs) -> (forall k x, In (k, x) kvs -> instance kt k /\ instance t x) ->
    instance (Map kt t m) (VDict kvs)
| inst_struct : forall n fields m kvs, Forall2 (fun nf kx => fst kx = VText (of_str (fst nf)) /\ instance (snd nf) (snd kx)) fields kvs ->
    instance (Struct n fields m) (VDict kvs).

(** The types whose objects JSON keeps. *)
Inductive json_type : ty -> Prop :=
| jt_null : forall m, json_type (Scalar Null m)
| jt_boolean : forall m, json_type (Scalar Boolean m)
| jt_int : forall w m, json_type (Scalar (Int w) m)
| jt_float : forall w m, json_type (Scalar (Float w) m)
| jt_string : forall m, json_type (Scalar String m)
| jt_enum : forall n t items m, json_type t -> json_type (Enum n t items m)
| jt_list : forall e m, json_type e -> json_type (List e m)
| jt_collection : forall n e p c m, json_type e -> json_type (Collection n e p c m)
| jt_map : forall kt t m, is_text kt -> json_type t -> json_type (Map kt t m)
| jt_struct : forall n fields m, (forall f t, In (f, t) fields -> json_type t) -> json_type (Struct n fields m)
with is_text : ty -> Prop :=
| it_string : forall m, nullable m = false -> is_text (Scalar String m)
| it_enum : forall n t items m, nullable m = false -> is_text t -> is_text (Enum n t items m).

(** Strings without surrogates that meet. *)
Definition clean (s : text) : Prop := unicode s /\ unpaired s.

(** The type system's types, without the types Python has no hints for. Names of fields do not
    repeat. *)
Inductive hinted : ty -> Prop :=
| hi_scalar : forall s m, (forall w, s <> UInt w) -> hinted (Scalar s m)
| hi_binary : forall n m, hinted (Binary n m)
| hi_timestamp : forall p m, hinted (Timestamp p m)
| hi_enum : forall n t items m, hinted t -> hinted (Enum n t items m)
| hi_list : forall e m, hinted e -> hinted (List e m)
| hi_collection : forall n e p c m, hinted e -> hinted (Collection n e p c m)
| hi_set : forall e m, hinted e -> hinted (Set_ e m)
| hi_map : forall kt t m, hinted kt -> hinted t -> hinted (Map kt t m)
| hi_struct : forall n fields m, NoDup (map fst fields) -> (forall f t, In (f, t) fields -> hinted t) ->
    hinted (Struct n fields m).

(** Data written to places one after the other, each where it was asked for. *)
Inductive writes {fl} (write : world -> value fl -> place -> world * result (Z * place)) :
  world -> list (place * value fl) -> world -> list place -> Prop :=
| wr_none : forall w, writes write w [] w []
| wr_one : forall w p d w1 z q rest w' qs, write w d p = (w1, Ok (z, q)) -> writes write w1 rest w' qs ->
    writes write w ((p, d) :: rest) w' (q :: qs).
