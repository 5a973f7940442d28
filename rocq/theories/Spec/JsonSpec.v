(** The grammar of JSON texts (RFC 8259), with what encoding/json makes of invalid
    UTF-8 and of unpaired surrogates, and what the members of an object mean for
    the fields of a struct. *)
From Verif.Model Require Import Marshal.
From Verif.Spec Require Import MarshalSpec.
Local Open Scope N_scope.

(** ** Text *)
Definition blank (l : list N) : Prop := Forall (fun b => b ∈ [32; 9; 10; 13]) l.
(** b is the hexadecimal digit of value d *)
Definition hex (b d : N) : Prop :=
  (48 <= b <= 57 /\ d = b - 48) \/ (65 <= b <= 70 /\ d = b - 55) \/ (97 <= b <= 102 /\ d = b - 87).
Definition four_hex (t : list N) (r : N) : Prop :=
  exists a b c d x y z u, t = [a; b; c; d] /\ hex a x /\ hex b y /\ hex c z /\ hex d u /\
    r = ((x * 16 + y) * 16 + z) * 16 + u.
Definition high_surrogate (r : N) : Prop := 55296 <= r <= 56319.
Definition low_surrogate (r : N) : Prop := 56320 <= r <= 57343.
Definition short_escapes : list (N * N) :=
  [(34, 34); (92, 92); (47, 47); (98, 8); (102, 12); (110, 10); (114, 13); (116, 9)].
(** the characters between the quotes and the text they stand for *)
Inductive chars : list N -> list N -> Prop :=
| ch_nil : chars [] []
| ch_plain r t d : scalar r -> 32 <= r -> r <> 34 -> r <> 92 -> chars t d -> chars (utf8 r ++ t) (utf8 r ++ d)
| ch_invalid b t d : 128 <= b -> (forall r k, scalar r -> b :: t <> utf8 r ++ k) -> chars t d ->
    chars (b :: t) (utf8 65533 ++ d)
| ch_short c x t d : (c, x) ∈ short_escapes -> chars t d -> chars (92 :: c :: t) (x :: d)
| ch_unicode h r t d : four_hex h r -> scalar r -> chars t d -> chars (92 :: 117 :: h ++ t) (utf8 r ++ d)
| ch_pair h r h' r' t d : four_hex h r -> high_surrogate r -> four_hex h' r' -> low_surrogate r' -> chars t d ->
    chars (92 :: 117 :: h ++ 92 :: 117 :: h' ++ t) (utf8 (65536 + (r - 55296) * 1024 + (r' - 56320)) ++ d)
| ch_unpaired h r t d : four_hex h r -> high_surrogate r \/ low_surrogate r ->
    (high_surrogate r -> forall h' r' k, four_hex h' r' -> low_surrogate r' -> t <> 92 :: 117 :: h' ++ k) ->
    chars t d -> chars (92 :: 117 :: h ++ t) (utf8 65533 ++ d).

(** ** Numbers *)
Definition decimal (l : list N) : Prop := Forall (fun b => 48 <= b <= 57) l.
Definition integer (l : list N) : Prop := l = [48] \/ exists b d, l = b :: d /\ 49 <= b <= 57 /\ decimal d.
Definition fraction (l : list N) : Prop := l = [] \/ exists d, l = 46 :: d /\ d <> [] /\ decimal d.
Definition exponent (l : list N) : Prop :=
  l = [] \/ exists e s d, l = e :: s ++ d /\ e ∈ [101; 69] /\ s ∈ [[]; [43]; [45]] /\ d <> [] /\ decimal d.
Definition number (l : list N) : Prop :=
  exists m i f e, l = m ++ i ++ f ++ e /\ m ∈ [[]; [45]] /\ integer i /\ fraction f /\ exponent e.

(** ** Values *)
Inductive value : list N -> json -> Prop :=
| v_null : value (bytes_of "null") JNull
| v_true : value (bytes_of "true") (JBool true)
| v_false : value (bytes_of "false") (JBool false)
| v_number t : number t -> value t (JNum t)
| v_string t d : chars t d -> value (34 :: t ++ [34]) (JStr d)
| v_empty_array s : blank s -> value (91 :: s ++ [93]) (JArr [])
| v_array t l : elements t l -> value (91 :: t ++ [93]) (JArr l)
| v_empty_object s : blank s -> value (123 :: s ++ [125]) (JObj [])
| v_object t l : members t l -> value (123 :: t ++ [125]) (JObj l)
with elements : list N -> list json -> Prop :=
| el_last s v s' j : blank s -> value v j -> blank s' -> elements (s ++ v ++ s') [j]
| el_more s v s' j t l : blank s -> value v j -> blank s' -> elements t l -> elements (s ++ v ++ s' ++ 44 :: t) (j :: l)
with members : list N -> list (list N * json) -> Prop :=
| mb_last s1 k key s2 s3 v s4 j : blank s1 -> chars k key -> blank s2 -> blank s3 -> value v j -> blank s4 ->
    members (s1 ++ 34 :: k ++ 34 :: s2 ++ 58 :: s3 ++ v ++ s4) [(key, j)]
| mb_more s1 k key s2 s3 v s4 j t l : blank s1 -> chars k key -> blank s2 -> blank s3 -> value v j -> blank s4 ->
    members t l -> members (s1 ++ 34 :: k ++ 34 :: s2 ++ 58 :: s3 ++ v ++ s4 ++ 44 :: t) ((key, j) :: l).
Definition document (t : list N) (j : json) : Prop :=
  exists s v s', t = s ++ v ++ s' /\ blank s /\ value v j /\ blank s'.

(** ** Members and fields *)
(** the key names the field: equal up to the case of ASCII letters, where the
    Kelvin sign counts as k and the long s as s *)
Inductive names : list N -> list N -> Prop :=
| nm_nil : names [] []
| nm_same b k n : names k n -> names (b :: k) (b :: n)
| nm_upper b k n : 65 <= b <= 90 -> names k n -> names (b :: k) (b + 32 :: n)
| nm_kelvin k n : names k n -> names (utf8 8490 ++ k) (107 :: n)
| nm_long_s k n : names k n -> names (utf8 383 ++ k) (115 :: n).
(** vs: the values given to a field, in order *)
Inductive given (n : string) : list (list N * json) -> list json -> Prop :=
| gv_nil : given n [] []
| gv_hit k v l vs : names k (bytes_of n) -> given n l vs -> given n ((k, v) :: l) (v :: vs)
| gv_miss k v l vs : ~ names k (bytes_of n) -> given n l vs -> given n ((k, v) :: l) vs.
(** what the field holds in the end; a value of another type has no result *)
Inductive string_field : list json -> string -> Prop :=
| sf_zero : string_field [] ""
| sf_null vs s : string_field vs s -> string_field (vs ++ [JNull]) s
| sf_set vs s t : string_field vs s -> string_field (vs ++ [JStr t]) (of_bytes t).
Inductive bool_field : list json -> bool -> Prop :=
| bf_zero : bool_field [] false
| bf_null vs b : bool_field vs b -> bool_field (vs ++ [JNull]) b
| bf_set vs b b' : bool_field vs b -> bool_field (vs ++ [JBool b']) b'.
(** the entries of an object added to a map one by one; null is the empty string *)
Inductive added : amap -> list (list N * json) -> amap -> Prop :=
| ad_nil m : added m [] m
| ad_set m k t l m' : added (<[of_bytes k := of_bytes t]> m) l m' -> added m ((k, JStr t) :: l) m'
| ad_null m k l m' : added (<[of_bytes k := ""%string]> m) l m' -> added m ((k, JNull) :: l) m'.
(** null empties the map, an object adds to it *)
Inductive map_field : list json -> amap -> Prop :=
| mf_zero : map_field [] ∅
| mf_null vs m : map_field vs m -> map_field (vs ++ [JNull]) ∅
| mf_add vs m l m' : map_field vs m -> added m l m' -> map_field (vs ++ [JObj l]) m'.
Definition has_string (l : list (list N * json)) (n s : string) : Prop := exists vs, given n l vs /\ string_field vs s.
Definition has_bool (l : list (list N * json)) (n : string) (b : bool) : Prop := exists vs, given n l vs /\ bool_field vs b.
Definition has_map (l : list (list N * json)) (n : string) (m : amap) : Prop := exists vs, given n l vs /\ map_field vs m.
(** the resource of the members *)
Definition resource_of (l : list (list N * json)) (uid typ : string) (a : amap) (name group version kind : string) (nsd : bool) : Prop :=
  has_string l "uid" uid /\ has_string l "type" typ /\ has_map l "attrs" a /\ has_string l "name" name /\
  has_string l "group" group /\ has_string l "version" version /\ has_string l "kind" kind /\ has_bool l "namespaced" nsd.
(** the members a resource field gets: those of the objects after the last null.
    What null removes must have been a resource too. *)
Inductive resource_field : list json -> option (list (list N * json)) -> Prop :=
| rf_zero : resource_field [] None
| rf_null vs o : resource_field vs o ->
    (forall l, o = Some l -> exists uid typ a name group version kind nsd, resource_of l uid typ a name group version kind nsd) ->
    resource_field (vs ++ [JNull]) None
| rf_add vs o l : resource_field vs o -> resource_field (vs ++ [JObj l]) (Some (default [] o ++ l)).
(** the text is an object with these members, or null *)
Definition text_members (b : string) (l : list (list N * json)) : Prop :=
  document (bytes_of b) (JObj l) \/ (document (bytes_of b) JNull /\ l = []).
