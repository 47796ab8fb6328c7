(** Attr.v -- model of src/tree/attribute/{mod,safe}.rs and of the argument maps of
    src/parsing/rule/impls/block/arguments.rs. *)
From Verif Require Import Base Strings Links.

(** SAFE_ATTRIBUTES, src/tree/attribute/safe.rs:43-129. *)
Definition SAFE_ATTRIBUTES : list str :=
  map lit ["accept"; "align"; "alt"; "autocapitalize"; "autoplay"; "background"; "bgcolor"; "border";
    "buffered"; "checked"; "cite"; "class"; "cols"; "colspan"; "contenteditable"; "controls";
    "coords"; "datetime"; "decoding"; "default"; "dir"; "dirname"; "disabled"; "download";
    "draggable"; "for"; "form"; "headers"; "height"; "hidden"; "high"; "href"; "hreflang"; "id";
    "inputmode"; "ismap"; "itemprop"; "kind"; "label"; "lang"; "list"; "loop"; "low"; "max";
    "maxlength"; "min"; "minlength"; "multiple"; "muted"; "name"; "optimum"; "pattern";
    "placeholder"; "poster"; "preload"; "readonly"; "required"; "reversed"; "role"; "rows";
    "rowspan"; "scope"; "selected"; "shape"; "size"; "sizes"; "span"; "spellcheck"; "src";
    "srclang"; "srcset"; "start"; "step"; "style"; "tabindex"; "target"; "title"; "translate";
    "type"; "usemap"; "value"; "width"; "wrap"]%string.
(** BOOLEAN_ATTRIBUTES, src/tree/attribute/safe.rs:142-170. *)
Definition BOOLEAN_ATTRIBUTES : list str :=
  map lit ["allowfullscreen"; "allowpaymentrequest"; "async"; "autofocus"; "autoplay"; "checked";
    "controls"; "default"; "disabled"; "formnovalidate"; "hidden"; "ismap"; "itemscope"; "loop";
    "multiple"; "muted"; "nomodule"; "novalidate"; "open"; "playsinline"; "readonly"; "required";
    "reversed"; "selected"; "truespeed"]%string.
(** URL_ATTRIBUTES, src/tree/attribute/safe.rs:181-182. *)
Definition URL_ATTRIBUTES : list str := map lit ["href"; "src"]%string.
(** SAFE_ATTRIBUTE_PREFIXES, src/tree/attribute/safe.rs:187. *)
Definition SAFE_ATTRIBUTE_PREFIXES : list str := map lit ["aria-"; "data-"]%string.
(** HashSet<UniCase>::contains: ASCII case-insensitive membership. *)
Definition unicase_mem (s : str) (l : list str) : bool := existsb (eq_nocase s) l.
(** ATTRIBUTE_SUFFIX_SAFE.is_match, src/tree/attribute/safe.rs:184-185: the regex [[a-zA-z0-9\-]+]
    is not anchored, so it matches when any character is in the class (which, as written, runs
    from "A" to "z"). *)
Definition suffix_char (c : char) : bool :=
  is_lower c || ((65 <=? c) && (c <=? 122))%N || is_digit c || ceqb c 45.
Definition suffix_safe (s : str) : bool := existsb suffix_char s.
(** is_safe_attribute, src/tree/attribute/safe.rs:189-201. *)
Definition is_safe_attribute (a : str) : bool :=
  if unicase_mem a SAFE_ATTRIBUTES then true
  else existsb (fun prefix => starts_with prefix a && suffix_safe a) SAFE_ATTRIBUTE_PREFIXES.

(** Arguments, src/parsing/rule/impls/block/arguments.rs:34-58: HashMap keyed by ASCII
    case-insensitive strings.  As an association list in some order; inserting an existing key
    keeps the old key and replaces the value. *)
Definition arguments : Type := list (str * str).
Fixpoint args_insert (m : arguments) (k v : str) : arguments :=
  match m with
  | [] => [(k, v)]
  | (k', v') :: m' => if eq_nocase k' k then (k', v) :: m' else (k', v') :: args_insert m' k v
  end.
(** Arguments::get removes the entry, arguments.rs:54-58. *)
Fixpoint args_get (m : arguments) (k : str) : option str * arguments :=
  match m with
  | [] => (None, [])
  | (k', v') :: m' => if eq_nocase k' k then (Some v', m')
                      else let '(r, m'') := args_get m' k in (r, (k', v') :: m'')
  end.

(** BTreeMap<Cow<str>, Cow<str>>: an association list sorted by key; [str] order is the order of
    the code points. *)
Fixpoint str_ltb (a b : str) : bool :=
  match a, b with
  | [], [] => false
  | [], _ => true
  | _, [] => false
  | x :: a', y :: b' => if (x <? y)%N then true else if (y <? x)%N then false else str_ltb a' b'
  end.
Definition btmap : Type := list (str * str).
Fixpoint bt_insert (m : btmap) (k v : str) : btmap :=
  match m with
  | [] => [(k, v)]
  | (k', v') :: m' => if seqb k' k then (k, v) :: m'
                      else if str_ltb k k' then (k, v) :: m
                      else (k', v') :: bt_insert m' k v
  end.
Fixpoint bt_get (m : btmap) (k : str) : option str :=
  match m with [] => None | (k', v') :: m' => if seqb k' k then Some v' else bt_get m' k end.
Definition bt_remove (m : btmap) (k : str) : btmap := filter (fun e => negb (seqb (fst e) k)) m.

Section WithUrl.
Variable word : char -> bool.          (* regex \w, see Links.v *)
Variable normalize : str -> str.       (* wikidot_normalize::normalize *)

(** The closure of from_arguments, src/tree/attribute/mod.rs:54-79; outer [None] = panic. *)
Definition attr_entry (kv : str * str) : option (option (str * str)) :=
  let '(key, value) := kv in
  let boolean := if unicase_mem key BOOLEAN_ATTRIBUTES then
                   match parse_boolean value with
                   | Some true => Some []
                   | Some false => None
                   | None => Some value
                   end
                 else Some value in
  match boolean with
  | None => Some None
  | Some value =>
      match (if unicase_mem key URL_ATTRIBUTES then normalize_href word normalize value else Some value) with
      | None => None
      | Some value => Some (Some (slower key, value))
      end
  end.
(** AttributeMap::from_arguments, src/tree/attribute/mod.rs:50-84: iterate over the hash map, keep
    the safe ones, collect into the BTreeMap. *)
Fixpoint from_arguments (acc : btmap) (args : arguments) : option btmap :=
  match args with
  | [] => Some acc
  | kv :: rest =>
      if is_safe_attribute (fst kv) then
        match attr_entry kv with
        | None => None
        | Some None => from_arguments acc rest
        | Some (Some (k, v)) => from_arguments (bt_insert acc k v) rest
        end
      else from_arguments acc rest
  end.
(** AttributeMap::insert, src/tree/attribute/mod.rs:86-93. *)
Definition attr_insert (m : btmap) (k v : str) : bool * btmap :=
  if is_safe_attribute k then (true, bt_insert m k v) else (false, m).
(** AttributeMap::isolate_id, src/tree/attribute/mod.rs:105-112. *)
Definition isolate_id (isolate_user_ids : bool) (m : btmap) : btmap :=
  if isolate_user_ids then
    match bt_get m (lit "id") with
    | Some v => bt_insert m (lit "id") (isolate_ids v)
    | None => m
    end
  else m.
(** Arguments::to_attribute_map, arguments.rs:112-118. *)
Definition to_attribute_map (isolate_user_ids : bool) (args : arguments) : option btmap :=
  match from_arguments [] args with
  | Some m => Some (isolate_id isolate_user_ids m)
  | None => None
  end.
End WithUrl.
