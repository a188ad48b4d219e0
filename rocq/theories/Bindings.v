(** Model of parts of the Python interface - /repo/esl/python_module_esl.cpp and /repo/esl/__init__.py.
    Python integers are unbounded; a conversion to a machine integer that does not fit raises an error in Python.
    An exception of C++ or of Python is [Throw].  The conversions of Boost.Python are not modelled further. *)
From Coq Require Import String.
From Verif Require Import Base Text Identity IdMap Multimap Money Codes Outputs Communicator Simulation StaticTicks Company.
From Coq Require Import SpecFloat.
Local Open Scope Z_scope.

(** ** Logging *)
(** [std::string::rfind]: the last place at which [pat] occurs. *)
Fixpoint prefixb (pat s : list Z) : bool :=
  match pat, s with
  | [], _ => true
  | a :: pat', b :: s' => (a =? b) && prefixb pat' s'
  | _ :: _, [] => false
  end.
Fixpoint rfind (pat s : list Z) : option nat :=
  match s with
  | [] => if prefixb pat [] then Some O else None
  | c :: s' => match rfind pat s' with Some i => Some (S i) | None => if prefixb pat s then Some O else None end
  end.
(** log.hpp:64-96 [apply_formatting] with the name of a file: the part of the path after the last directory
    whose name ends in esl, or else after the last separator, or else all of it; without that name of a file see
    [log_get] in Outputs.v.  Sent here as one text. *)
Definition shown_path (path : list Z) : list Z :=
  match rfind (codes "esl/") path with
  | Some i => skipn (i + 4) path
  | None => match rfind (codes "/") path with Some j => skipn (j + 1) path | None => path end
  end.
Definition log_prefix (level : Z) (file : list Z) (line : Z) : list Z :=
  codes "(" ++ severity_name level ++ codes ", " ++ shown_path file ++ codes "[" ++ dec line ++ codes "]) ".
(** log.hpp:116-134 [get<level>(function, file, line)]. *)
Definition log_get_at (release : bool) (filter level : Z) (file : list Z) (line : Z) (g : logs) : outcome (target * logs) :=
  if level <? filter then Ret (Null, g) else
  match channel_value release Buffer (log_prefix level file line) g with
  | Ret g' => Ret (Buffer, g')
  | Throw => Throw
  | UB => UB
  end.
(** python_module_esl.cpp:523-550 [python_log_detailed]; the line number is cut to 32 bits.  __init__.py:95-104 [log]
    calls it with the place of the caller. *)
Definition python_level (level : Z) : option Z :=
  if level =? 0 then Some 0 else if level =? 1 then Some 1 else if level =? 2 then Some 1 else if level =? 3 then Some 1 else None.
Definition python_log (release : bool) (filter level : Z) (message file : list Z) (line : Z) (g : logs) : outcome logs :=
  match python_level level with
  | None => Ret g
  | Some l =>
      match log_get_at release filter l file (w32 line) g with
      | Ret (k, g1) => match channel_value release k message g1 with
                       | Ret g2 => channel_std_endl release k g2
                       | Throw => Throw
                       | UB => UB
                       end
      | Throw => Throw
      | UB => UB
      end
  end.
(** log.hpp:156-161: the main log drops what is below a warning in releases. *)
Definition main_filter (release : bool) : Z := if release then 2 else 0.

(** ** Codes *)
(** python_module_esl.cpp:564-567 [python_currency_code] and 978-981 [python_country_code]. *)
Definition python_currency_code (c : currency) : list Z := [c0 c; c1 c].
Definition python_country_code (c : list Z) : list Z := [nth 0 c 0; nth 1 c 0].
(** python_module_esl.cpp:1811-1987, 2378-2625, 2760-3003: the names in Python and the constants they are given. *)
Local Open Scope string_scope.
Definition python_currencies : list (String.string * String.string) := [
    ("AED", "AED"); ("AFN", "AFN"); ("ALL", "ALL"); ("AMD", "AMD"); ("ANG", "ANG"); ("AOA", "AOA"); ("ARS", "ARS");
    ("AUD", "AUD"); ("AWG", "AWG"); ("AZN", "AZN"); ("BAM", "BAM"); ("BBD", "BBD"); ("BDT", "BDT"); ("BGN", "BGN");
    ("BHD", "BHD"); ("BIF", "BIF"); ("BMD", "BMD"); ("BND", "BND"); ("BOB", "BOB"); ("BOV", "BOV"); ("BRL", "BRL");
    ("BSD", "BSD"); ("BTN", "BTN"); ("BWP", "BWP"); ("BYN", "BYN"); ("BZD", "BZD"); ("CAD", "CAD"); ("CDF", "CDF");
    ("CHE", "CHE"); ("CHF", "CHF"); ("CHW", "CHW"); ("CLF", "CLF"); ("CLP", "CLP"); ("CNY", "CNY"); ("COP", "COP");
    ("COU", "COU"); ("CRC", "CRC"); ("CUC", "CUC"); ("CUP", "CUP"); ("CVE", "CVE"); ("CZK", "CZK"); ("DJF", "DJF");
    ("DKK", "DKK"); ("DOP", "DOP"); ("DZD", "DZD"); ("EGP", "EGP"); ("ERN", "ERN"); ("ETB", "ETB"); ("EUR", "EUR");
    ("FJD", "FJD"); ("FKP", "FKP"); ("GBP", "GBP"); ("GEL", "GEL"); ("GHS", "GHS"); ("GIP", "GIP"); ("GMD", "GMD");
    ("GNF", "GNF"); ("GTQ", "GTQ"); ("GYD", "GYD"); ("HKD", "HKD"); ("HNL", "HNL"); ("HRK", "HRK"); ("HTG", "HTG");
    ("HUF", "HUF"); ("IDR", "IDR"); ("ILS", "ILS"); ("INR", "INR"); ("IQD", "IQD"); ("IRR", "IRR"); ("ISK", "ISK");
    ("JMD", "JMD"); ("JOD", "JOD"); ("JPY", "JPY"); ("KES", "KES"); ("KGS", "KGS"); ("KHR", "KHR"); ("KMF", "KMF");
    ("KPW", "KPW"); ("KRW", "KRW"); ("KWD", "KWD"); ("KYD", "KYD"); ("KZT", "KZT"); ("LAK", "LAK"); ("LBP", "LBP");
    ("LKR", "LKR"); ("LRD", "LRD"); ("LSL", "LSL"); ("LYD", "LYD"); ("MAD", "MAD"); ("MDL", "MDL"); ("MGA", "MGA");
    ("MKD", "MKD"); ("MMK", "MMK"); ("MNT", "MNT"); ("MOP", "MOP"); ("MRU", "MRU"); ("MUR", "MUR"); ("MVR", "MVR");
    ("MWK", "MWK"); ("MXN", "MXN"); ("MXV", "MXV"); ("MYR", "MYR"); ("MZN", "MZN"); ("NAD", "NAD"); ("NGN", "NGN");
    ("NIO", "NIO"); ("NOK", "NOK"); ("NPR", "NPR"); ("NZD", "NZD"); ("OMR", "OMR"); ("PAB", "PAB"); ("PEN", "PEN");
    ("PGK", "PGK"); ("PHP", "PHP"); ("PKR", "PKR"); ("PLN", "PLN"); ("PYG", "PYG"); ("QAR", "QAR"); ("RON", "RON");
    ("RSD", "RSD"); ("RUB", "RUB"); ("RWF", "RWF"); ("SAR", "SAR"); ("SBD", "SBD"); ("SCR", "SCR"); ("SDG", "SDG");
    ("SEK", "SEK"); ("SGD", "SGD"); ("SHP", "SHP"); ("SLL", "SLL"); ("SOS", "SOS"); ("SRD", "SRD"); ("SSP", "SSP");
    ("STN", "STN"); ("SVC", "SVC"); ("SYP", "SYP"); ("SZL", "SZL"); ("THB", "THB"); ("TJS", "TJS"); ("TMT", "TMT");
    ("TND", "TND"); ("TOP", "TOP"); ("TRY", "TRY"); ("TTD", "TTD"); ("TWD", "TWD"); ("TZS", "TZS"); ("UAH", "UAH");
    ("UGX", "UGX"); ("USD", "USD"); ("UYI", "UYI"); ("UYU", "UYU"); ("UZS", "UZS"); ("VEF", "VEF"); ("VND", "VND");
    ("VUV", "VUV"); ("WST", "WST"); ("XAF", "XAF"); ("XAG", "XAG"); ("XAU", "XAU"); ("XBA", "XBA"); ("XBB", "XBB");
    ("XBC", "XBC"); ("XBD", "XBD"); ("XCD", "XCD"); ("XDR", "XDR"); ("XOF", "XOF"); ("XPD", "XPD"); ("XPF", "XPF");
    ("XPT", "XPT"); ("XSU", "XSU"); ("XUA", "XUA"); ("YER", "YER"); ("ZAR", "ZAR"); ("ZMW", "ZMW"); ("ZWL", "ZWL")].
Definition python_countries : list (String.string * String.string) := [
    ("AE", "AE"); ("AF", "AF"); ("AG", "AG"); ("AI", "AI"); ("AL", "AL"); ("AM", "AM"); ("AO", "AO"); ("AQ", "AQ");
    ("AR", "AR"); ("AS", "AS"); ("AT", "AT"); ("AU", "AU"); ("AW", "AW"); ("AX", "AX"); ("AZ", "AZ"); ("BA", "BA");
    ("BB", "BB"); ("BD", "BD"); ("BE", "BE"); ("BF", "BF"); ("BG", "BG"); ("BH", "BH"); ("BI", "BI"); ("BJ", "BJ");
    ("BL", "BL"); ("BM", "BM"); ("BN", "BN"); ("BO", "BO"); ("BQ", "BQ"); ("BR", "BR"); ("BS", "BS"); ("BT", "BT");
    ("BV", "BV"); ("BW", "BW"); ("BY", "BY"); ("BZ", "BZ"); ("CA", "CA"); ("CC", "CC"); ("CD", "CD"); ("CF", "CF");
    ("CG", "CG"); ("CH", "CH"); ("CI", "CI"); ("CK", "CK"); ("CL", "CL"); ("CM", "CM"); ("CN", "CN"); ("CO", "CO");
    ("CR", "CR"); ("CU", "CU"); ("CV", "CV"); ("CW", "CW"); ("CX", "CX"); ("CY", "CY"); ("CZ", "CZ"); ("DE", "DE");
    ("DJ", "DJ"); ("DK", "DK"); ("DM", "DM"); ("DO", "DO"); ("DZ", "DZ"); ("EC", "EC"); ("EE", "EE"); ("EG", "EG");
    ("EH", "EH"); ("ER", "ER"); ("ES", "ES"); ("ET", "ET"); ("FI", "FI"); ("FJ", "FJ"); ("FK", "FK"); ("FM", "FM");
    ("FO", "FO"); ("FR", "FR"); ("GA", "GA"); ("GB", "GB"); ("GD", "GD"); ("GE", "GE"); ("GF", "GF"); ("GG", "GG");
    ("GH", "GH"); ("GI", "GI"); ("GL", "GL"); ("GM", "GM"); ("GN", "GN"); ("GP", "GP"); ("GQ", "GQ"); ("GR", "GR");
    ("GS", "GS"); ("GT", "GT"); ("GU", "GU"); ("GW", "GW"); ("GY", "GY"); ("HK", "HK"); ("HM", "HM"); ("HN", "HN");
    ("HR", "HR"); ("HT", "HT"); ("HU", "HU"); ("ID", "ID"); ("IE", "IE"); ("IL", "IL"); ("IM", "IM"); ("IN", "IN");
    ("IO", "IO"); ("IQ", "IQ"); ("IR", "IR"); ("IS", "IS"); ("IT", "IT"); ("JE", "JE"); ("JM", "JM"); ("JO", "JO");
    ("JP", "JP"); ("KE", "KE"); ("KG", "KG"); ("KH", "KH"); ("KI", "KI"); ("KM", "KM"); ("KN", "KN"); ("KP", "KP");
    ("KR", "KR"); ("KW", "KW"); ("KY", "KY"); ("KZ", "KZ"); ("LA", "LA"); ("LB", "LB"); ("LC", "LC"); ("LI", "LI");
    ("LK", "LK"); ("LR", "LR"); ("LS", "LS"); ("LT", "LT"); ("LU", "LU"); ("LV", "LV"); ("LY", "LY"); ("MA", "MA");
    ("MC", "MC"); ("MD", "MD"); ("ME", "ME"); ("MF", "MF"); ("MG", "MG"); ("MH", "MH"); ("MK", "MK"); ("ML", "ML");
    ("MM", "MM"); ("MN", "MN"); ("MO", "MO"); ("MP", "MP"); ("MQ", "MQ"); ("MR", "MR"); ("MS", "MS"); ("MT", "MT");
    ("MU", "MU"); ("MV", "MV"); ("MW", "MW"); ("MX", "MX"); ("MY", "MY"); ("MZ", "MZ"); ("NA", "NA"); ("NC", "NC");
    ("NE", "NE"); ("NF", "NF"); ("NG", "NG"); ("NI", "NI"); ("NL", "NL"); ("NO", "NO"); ("NP", "NP"); ("NR", "NR");
    ("NU", "NU"); ("NZ", "NZ"); ("OM", "OM"); ("PA", "PA"); ("PE", "PE"); ("PF", "PF"); ("PG", "PG"); ("PH", "PH");
    ("PK", "PK"); ("PL", "PL"); ("PM", "PM"); ("PN", "PN"); ("PR", "PR"); ("PS", "PS"); ("PT", "PT"); ("PW", "PW");
    ("PY", "PY"); ("QA", "QA"); ("RE", "RE"); ("RO", "RO"); ("RS", "RS"); ("RU", "RU"); ("RW", "RW"); ("SA", "SA");
    ("SB", "SB"); ("SC", "SC"); ("SD", "SD"); ("SE", "SE"); ("SG", "SG"); ("SH", "SH"); ("SI", "SI"); ("SJ", "SJ");
    ("SK", "SK"); ("SL", "SL"); ("SM", "SM"); ("SN", "SN"); ("SO", "SO"); ("SR", "SR"); ("SS", "SS"); ("ST", "ST");
    ("SV", "SV"); ("SX", "SX"); ("SY", "SY"); ("SZ", "SZ"); ("TC", "TC"); ("TD", "TD"); ("TF", "TF"); ("TG", "TG");
    ("TH", "TH"); ("TJ", "TJ"); ("TK", "TK"); ("TL", "TL"); ("TM", "TM"); ("TN", "TN"); ("TO", "TO"); ("TR", "TR");
    ("TT", "TT"); ("TV", "TV"); ("TW", "TW"); ("TZ", "TZ"); ("UA", "UA"); ("UG", "UG"); ("UM", "UM"); ("US", "US");
    ("UY", "UY"); ("UZ", "UZ"); ("VA", "VA"); ("VC", "VC"); ("VE", "VE"); ("VG", "VG"); ("VI", "VI"); ("VN", "VN");
    ("VU", "VU"); ("WF", "WF"); ("WS", "WS"); ("YE", "YE"); ("YT", "YT"); ("ZA", "ZA"); ("ZM", "ZM"); ("ZW", "ZW")].
Definition python_jurisdictions : list (String.string * String.string) := [
    ("AF", "AF"); ("AL", "AL"); ("DZ", "DZ"); ("AS", "AS"); ("AD", "AD"); ("AO", "AO"); ("AI", "AI"); ("AG", "AG");
    ("AR", "AR"); ("AM", "AM"); ("AW", "AW"); ("AU", "AU"); ("AT", "AT"); ("AZ", "AZ"); ("BS", "BS"); ("BH", "BH");
    ("BD", "BD"); ("BB", "BB"); ("BY", "BY"); ("BE", "BE"); ("BZ", "BZ"); ("BJ", "BJ"); ("BM", "BM"); ("BT", "BT");
    ("BO", "BO"); ("BQ", "BQ"); ("BA", "BA"); ("BW", "BW"); ("BV", "BV"); ("BR", "BR"); ("IO", "IO"); ("VG", "VG");
    ("BN", "BN"); ("BG", "BG"); ("BF", "BF"); ("BI", "BI"); ("CV", "CV"); ("KH", "KH"); ("CM", "CM"); ("CA", "CA");
    ("KY", "KY"); ("CF", "CF"); ("TD", "TD"); ("CL", "CL"); ("CN", "CN"); ("HK", "HK"); ("MO", "MO"); ("CX", "CX");
    ("CC", "CC"); ("CO", "CO"); ("KM", "KM"); ("CG", "CG"); ("CK", "CK"); ("CR", "CR"); ("HR", "HR"); ("CU", "CU");
    ("CW", "CW"); ("CY", "CY"); ("CZ", "CZ"); ("CI", "CI"); ("KP", "KP"); ("CD", "CD"); ("DK", "DK"); ("DJ", "DJ");
    ("DM", "DM"); ("DO", "DO"); ("EC", "EC"); ("EG", "EG"); ("SV", "SV"); ("GQ", "GQ"); ("ER", "ER"); ("EE", "EE");
    ("ET", "ET"); ("FO", "FO"); ("FJ", "FJ"); ("FI", "FI"); ("FR", "FR"); ("GF", "GF"); ("PF", "PF"); ("TF", "TF");
    ("GA", "GA"); ("GM", "GM"); ("GE", "GE"); ("DE", "DE"); ("GH", "GH"); ("GI", "GI"); ("GR", "GR"); ("GL", "GL");
    ("GD", "GD"); ("GP", "GP"); ("GU", "GU"); ("GT", "GT"); ("GG", "GG"); ("GN", "GN"); ("GW", "GW"); ("GY", "GY");
    ("HT", "HT"); ("HM", "HM"); ("VA", "VA"); ("HN", "HN"); ("HU", "HU"); ("IS", "IS"); ("IN", "IN"); ("ID", "ID");
    ("IR", "IR"); ("IQ", "IQ"); ("IE", "IE"); ("IM", "IM"); ("IL", "IL"); ("IT", "IT"); ("JM", "JM"); ("JP", "JP");
    ("JE", "JE"); ("JO", "JO"); ("KZ", "KZ"); ("KE", "KE"); ("KI", "KI"); ("KW", "KW"); ("KG", "KG"); ("LA", "LA");
    ("LV", "LV"); ("LB", "LB"); ("LS", "LS"); ("LR", "LR"); ("LY", "LY"); ("LI", "LI"); ("LT", "LT"); ("LU", "LU");
    ("MG", "MG"); ("MW", "MW"); ("MY", "MY"); ("MV", "MV"); ("ML", "ML"); ("MT", "MT"); ("MH", "MH"); ("MQ", "MQ");
    ("MR", "MR"); ("MU", "MU"); ("YT", "YT"); ("MX", "MX"); ("FM", "FM"); ("MC", "MC"); ("MN", "MN"); ("ME", "ME");
    ("MS", "MS"); ("MA", "MA"); ("MZ", "MZ"); ("MM", "MM"); ("NA", "NA"); ("NR", "NR"); ("NP", "NP"); ("NL", "NL");
    ("NC", "NC"); ("NZ", "NZ"); ("NI", "NI"); ("NE", "NE"); ("NG", "NG"); ("NU", "NU"); ("NF", "NF"); ("MP", "MP");
    ("NO", "NO"); ("OM", "OM"); ("PK", "PK"); ("PW", "PW"); ("PA", "PA"); ("PG", "PG"); ("PY", "PY"); ("PE", "PE");
    ("PH", "PH"); ("PN", "PN"); ("PL", "PL"); ("PT", "PT"); ("PR", "PR"); ("QA", "QA"); ("KR", "KR"); ("MD", "MD");
    ("RO", "RO"); ("RU", "RU"); ("RW", "RW"); ("RE", "RE"); ("BL", "BL"); ("SH", "SH"); ("KN", "KN"); ("LC", "LC");
    ("MF", "MF"); ("PM", "PM"); ("VC", "VC"); ("WS", "WS"); ("SM", "SM"); ("ST", "ST"); ("SA", "SA"); ("SN", "SN");
    ("RS", "RS"); ("SC", "SC"); ("SL", "SL"); ("SG", "SG"); ("SX", "SX"); ("SK", "SK"); ("SI", "SI"); ("SB", "SB");
    ("SO", "SO"); ("ZA", "ZA"); ("SS", "SS"); ("ES", "ES"); ("LK", "LK"); ("SD", "SD"); ("SR", "SR"); ("SJ", "SJ");
    ("SZ", "SZ"); ("SE", "SE"); ("CH", "CH"); ("SY", "SY"); ("TJ", "TJ"); ("TH", "TH"); ("MK", "MK"); ("TL", "TL");
    ("TG", "TG"); ("TK", "TK"); ("TO", "TO"); ("TT", "TT"); ("TN", "TN"); ("TR", "TR"); ("TM", "TM"); ("TC", "TC");
    ("TV", "TV"); ("UG", "UG"); ("UA", "UA"); ("AE", "AE"); ("GB", "GB"); ("TZ", "TZ"); ("UM", "UM"); ("VI", "VI");
    ("US", "US"); ("UY", "UY"); ("UZ", "UZ"); ("VU", "VU"); ("VE", "VE"); ("VN", "VN"); ("WF", "WF"); ("EH", "EH");
    ("YE", "YE"); ("ZM", "ZM"); ("ZW", "ZW"); ("AX", "AX")].
Local Close Scope string_scope.
(** python_module_esl.cpp:669-678 [get_isin_code] and [set_isin_code]: nine characters; [to_array] of a shorter string is
    undefined (algorithms.hpp:77-93; an assertion stops the program first when assertions are on). *)
Definition get_isin_code (i : list Z * list Z) : list Z := snd i.
Definition set_isin_code (i : list Z * list Z) (code : list Z) : outcome (list Z * list Z) :=
  if (length code <? 9)%nat then UB else Ret (fst i, firstn 9 code).

(** ** Parameters *)
(** What may be given to [add_constant]: instances of float (those of numpy.float64 too), of int (bool too), prices,
    signed and unsigned integers of numpy, other floating-point numbers of numpy (as [float] converts them), and others. *)
Inductive pyvalue :=
| PFloat (x : spec_float) | PInt (n : Z) | PPrice (p : price)
| PNumpySigned (n : Z) | PNumpyUnsigned (n : Z) | PNumpyFloat (x : spec_float) | POther.
(** parameter.hpp:49-72: the kinds of constants that Python can make, and those it can not. *)
Inductive parameter := CDouble (x : spec_float) | CInt64 (n : Z) | CUint64 (n : Z) | CPrice (p : price) | CForeign (k : Z).
Definition pvalues : Type := idmap parameter.
(** The classes [constant_double], [constant_int64], [constant_uint64], [constant_price] (3115-3125): a number that does
    not fit is an error. *)
Definition make_int64 (n : Z) : outcome parameter := if in_i64 n then Ret (CInt64 n) else Throw.
Definition make_uint64 (n : Z) : outcome parameter := if (0 <=? n) && (n <? 2 ^ 64) then Ret (CUint64 n) else Throw.
(** __init__.py:107-134 [add_constant_parameter_helper]: names are texts in the order of the map. *)
Definition make_constant (v : pyvalue) : outcome parameter :=
  match v with
  | PFloat x => Ret (CDouble x)
  | PInt n => make_int64 n
  | PPrice p => Ret (CPrice p)
  | PNumpySigned n => make_int64 n
  | PNumpyUnsigned n => make_uint64 n
  | PNumpyFloat x => Ret (CDouble x)
  | POther => Throw
  end.
Definition add_constant (name : list Z) (v : pyvalue) (m : pvalues) : outcome pvalues :=
  match make_constant v with Ret p => Ret (im_set name p m) | Throw => Throw | UB => UB end.
(** python_module_esl.cpp:1469-1513 [pack] and [parametrization_get_helper]. *)
Definition pack_double (p : parameter) : option pyvalue := match p with CDouble x => Some (PFloat x) | _ => None end.
Definition pack_int64 (p : parameter) : option pyvalue := match p with CInt64 n => Some (PInt n) | _ => None end.
Definition pack_uint64 (p : parameter) : option pyvalue := match p with CUint64 n => Some (PInt n) | _ => None end.
Definition get_item (name : list Z) (m : pvalues) : outcome pyvalue :=
  match im_find name m with
  | None => Throw
  | Some p =>
      match pack_double p with
      | Some v => Ret v
      | None => match pack_int64 p with
                | Some v => Ret v
                | None => match pack_uint64 p with Some v => Ret v | None => Throw end
                end
      end
  end.
(** parametrization.hpp:49-65 without arguments, as Python makes it (3134). *)
Definition default_parameters (release : bool) : pvalues :=
  let v := if release then 0 else 1 in
  im_set (codes "threads") (CUint64 v)
  (im_set (codes "verbosity") (CUint64 v)
  (im_set (codes "end") (CUint64 1)
  (im_set (codes "start") (CUint64 0)
  (im_set (codes "sample") (CUint64 0) [])))).
(** parametrization.hpp:73-86 [get<std::uint64_t>] and model.cpp:38-53: a model made from them (1409-1418). *)
Definition get_u64 (name : list Z) (m : pvalues) : outcome Z :=
  match im_find name m with Some (CUint64 n) => Ret n | _ => Throw end.
Record model_times := mk_times { t_start : Z; t_end : Z; t_time : Z; t_sample : Z; t_verbosity : Z; t_threads : Z }.
Definition python_model (m : pvalues) : outcome model_times :=
  bind (get_u64 (codes "start") m) (fun a =>
  bind (get_u64 (codes "end") m) (fun b =>
  bind (get_u64 (codes "sample") m) (fun c =>
  bind (get_u64 (codes "verbosity") m) (fun d =>
  bind (get_u64 (codes "threads") m) (fun e => Ret (mk_times a b a c d (Z.max 1 e))))))).
(** __init__.py:155-180 [simple_experiment]: [numpy.random.seed] takes 32 bits. *)
Definition simple_experiment (m : pvalues) : outcome model_times :=
  bind (python_model m) (fun t => bind (get_item (codes "sample") m) (fun v =>
  match v with PInt n => if (0 <=? n) && (n <? 2 ^ 32) then Ret t else Throw | _ => Throw end)).

(** ** Mappings: python_module_esl.cpp:113-278 [map_indexing_suite], for keys in the order of the map. *)
Section Mapping.
Context {V : Type}.
Definition map_get (k : identity) (m : idmap V) : outcome V := match im_find k m with Some v => Ret v | None => Throw end.
Definition map_put (k : identity) (v : V) (m : idmap V) : idmap V := im_set k v m.
Definition map_delete (k : identity) (m : idmap V) : outcome (idmap V) := Ret (im_erase k m).
Definition map_contains (k : identity) (m : idmap V) : bool := match im_find k m with Some _ => true | None => false end.
Definition map_len (m : idmap V) : Z := Z.of_nat (length m).
Definition map_keys (m : idmap V) : list identity := map fst m.
Definition map_values (m : idmap V) : list V := map snd m.
(** python_module_esl.cpp:1066-1214 [multimap_indexing_suite], for keys that are numbers: an inbox.  [find] gives any element
    with the key; in libstdc++ and in Boost.Container it is the first. *)
Fixpoint inbox_find (k : Z) (m : list (Z * V)) : option V :=
  match m with [] => None | (k', v) :: m' => if k' =? k then Some v else inbox_find k m' end.
Definition inbox_get (k : Z) (m : list (Z * V)) : outcome V := match inbox_find k m with Some v => Ret v | None => Throw end.
Definition inbox_put (k : Z) (v : V) (m : list (Z * V)) : list (Z * V) := map (fun e => if fst e =? k then (fst e, v) else e) m.
Definition inbox_delete (k : Z) (m : list (Z * V)) : outcome (list (Z * V)) := Ret (filter (fun e => negb (fst e =? k)) m).
End Mapping.

(** ** Quotes: python_module_esl.cpp:692-702, 2083-2097; [lot] can be assigned, a number that does not fit is an error. *)
Definition quote_get_price (q : quote) : price := q_price q.
Definition quote_put_price (q : quote) (p : price) : quote := mk_quote (lot q) p.
Definition quote_put_lot (q : quote) (n : Z) : outcome quote := if (0 <=? n) && (n <? 2 ^ 32) then Ret (mk_quote n (q_price q)) else Throw.
Definition quote_of_price (p : price) : outcome quote := new_quote p 1.

(** ** Agents and models written in Python *)
Section Agents.
Context {St : Type}.
(** What a method written in Python returns: nothing, or a time. *)
Definition py_action : Type := Z -> Z -> seed -> own (St:=St) -> own (St:=St) * option Z.
(** python_module_esl.cpp:326-341 [act]; agent.cpp:52-57: without a method of that name. *)
Definition python_act (method : option py_action) : action (St:=St) := fun lower upper s o =>
  match method with
  | Some f => match f lower upper s o with (o', None) => (o', upper) | (o', Some t) => (o', t) end
  | None => (o, upper)
  end.
(** python_module_esl.cpp:1618-1624: the properties [inbox] and [outbox] of an agent return copies; what is done to the copy:
    [append] of vector_indexing_suite. *)
Definition outbox_property (a : agent St) : list message := ag_outbox a.
Definition append_to_outbox (a : agent St) (m : message) : agent St * list message :=
  let copy := outbox_property a in (a, copy ++ [m]).
(** python_module_esl.cpp:1221-1227 [send_message_python]. *)
Definition python_send_message (a : agent St) (m : message) : agent St := a.
End Agents.
(** python_module_esl.cpp:604-617 [upcoming_dividend] of a company written in Python: [get_override] is None without a method
    of that name, and calling None is an error.  (With a method the call passes the seed by value, for which there is no conversion; not
    modelled.) company.cpp:102-108: a company of C++ has no policy. *)
Definition python_upcoming_dividend {Policy : Type} (method : option (Z -> Z -> outcome (option Policy))) (lower upper : Z) : outcome (option Policy) :=
  match method with None => Throw | Some f => f lower upper end.
Definition upcoming_dividend {Policy : Type} (lower upper : Z) : outcome (option Policy) := Ret None.
(** company.cpp:111-183 [act] of both kinds of companies. *)
Definition python_company_act (method : option (Z -> Z -> outcome (option policy))) (lower upper : Z) (c : company) : outcome (company * list announcement * Z) :=
  bind (python_upcoming_dividend method lower upper) (fun offered => Ret (act lower upper offered c)).
Definition company_act (lower upper : Z) (c : company) : outcome (company * list announcement * Z) :=
  bind (upcoming_dividend lower upper) (fun offered => Ret (act lower upper offered c)).

(** ** Orders written in Python *)
(** python_module_esl.cpp:792-831 [excess_demand]: keys that are identities of property, values that convert to a double;
    what a Python dictionary has under a key.  The other entries are left out. *)
Inductive pykey := KProperty (i : identity) | KOther (k : Z).
Inductive pynumber := NDouble (x : spec_float) | NInt (n : Z) | NOther (k : Z).
Definition extract_double (to_double : Z -> outcome spec_float) (v : pynumber) : option (outcome spec_float) :=
  match v with NDouble x => Some (Ret x) | NInt n => Some (to_double n) | NOther _ => None end.
Fixpoint collect_demand (to_double : Z -> outcome spec_float) (answer : list (pykey * pynumber)) (m : idmap spec_float) : outcome (idmap spec_float) :=
  match answer with
  | [] => Ret m
  | (KProperty i, v) :: l =>
      match extract_double to_double v with
      | Some (Ret x) => collect_demand to_double l (im_emplace i x m)
      | Some Throw => Throw
      | Some UB => UB
      | None => collect_demand to_double l m
      end
  | (KOther _, _) :: l => collect_demand to_double l m
  end.
Definition python_demand (to_double : Z -> outcome spec_float) (answer : list (pykey * pynumber)) : outcome (idmap spec_float) :=
  collect_demand to_double answer [].
(** python_module_esl.cpp:834-861: the supply of an order as a dictionary. *)
Definition get_supply (m : idmap (Z * Z)) : list (identity * (Z * Z)) := m.
Definition set_supply (d : list (identity * (Z * Z))) : idmap (Z * Z) := fold_left (fun m e => im_emplace (fst e) (snd e) m) d [].
