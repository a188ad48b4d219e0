(** Model of codes and the tables of them - /repo/esl/economics/markets/iso_10383.hpp,
    /repo/esl/economics/{iso_4217,currencies}.hpp, /repo/esl/geography/{iso_3166_1_alpha_2,countries}.hpp,
    /repo/esl/law/{jurisdiction,jurisdictions}.hpp. *)
From Verif Require Import Base Text Money CheckDigits.
From Coq Require String.
Local Open Scope Z_scope.
Import String.StringSyntax.
Local Open Scope string_scope.

(** *** iso_10383.hpp:37-58: market identifier codes; a [char] is signed. *)
Definition market_symbol (c : Z) : bool := ((65 <=? c) && (c <=? 90)) || ((48 <=? c) && (c <=? 57)).
Definition new_market (code : list Z) : outcome (list Z) := if forallb market_symbol code then Ret code else Throw.
(** iso_10383.hpp:60-67: from a string; [operator []] at the length gives the character zero and is undefined beyond. *)
Definition at_string (s : list Z) (i : nat) : outcome Z :=
  if (i <? length s)%nat then Ret (nth i s 0) else if (i =? length s)%nat then Ret 0 else UB.
Definition market_of_string (s : list Z) : outcome (list Z) :=
  match at_string s 0, at_string s 1, at_string s 2, at_string s 3 with
  | Ret a, Ret b, Ret c, Ret d => new_market [a; b; c; d]
  | _, _, _, _ => UB
  end.
(** iso_10383.hpp:69-75 [representation]. *)
Definition market_text (m : list Z) : list Z := m.
(** iso_10383.hpp:77-105: the comparisons of [std::array]: lexicographic. *)
Fixpoint array_ltb (a b : list Z) : bool :=
  match a, b with
  | x :: a', y :: b' => if x <? y then true else if y <? x then false else array_ltb a' b'
  | [], _ :: _ => true
  | _, [] => false
  end.
Fixpoint array_eqb (a b : list Z) : bool :=
  match a, b with
  | x :: a', y :: b' => (x =? y) && array_eqb a' b'
  | [], [] => true
  | _, _ => false
  end.
Definition market_eqb (a b : list Z) : bool := array_eqb a b.
Definition market_neb (a b : list Z) : bool := negb (array_eqb a b).
Definition market_ltb (a b : list Z) : bool := array_ltb a b.
Definition market_gtb (a b : list Z) : bool := array_ltb b a.
Definition market_leb (a b : list Z) : bool := negb (array_ltb b a).
Definition market_geb (a b : list Z) : bool := negb (array_ltb a b).
(** iso_10383.hpp:115-122: the hash of the text, for a hash function of strings. *)
Definition market_hash (hash : list Z -> Z) (m : list Z) : Z := hash (market_text m).

(** *** currencies.hpp:40-217: the name of the constant, the code, the number of subunits (iso_4217.hpp:73-74: 100 unless given). *)
Definition currency_constants : list (String.string * (String.string * Z)) := [
    ("AED", ("AED", 100)); ("AFN", ("AFN", 100)); ("ALL", ("ALL", 100)); ("AMD", ("AMD", 100)); ("ANG", ("ANG", 100));
    ("AOA", ("AOA", 100)); ("ARS", ("ARS", 100)); ("AUD", ("AUD", 100)); ("AWG", ("AWG", 100)); ("AZN", ("AZN", 100));
    ("BAM", ("BAM", 100)); ("BBD", ("BBD", 100)); ("BDT", ("BDT", 100)); ("BGN", ("BGN", 100));
    ("BHD", ("BHD", 1000)); ("BIF", ("BIF", 1)); ("BMD", ("BMD", 100)); ("BND", ("BND", 100)); ("BOB", ("BOB", 100));
    ("BOV", ("BOV", 100)); ("BRL", ("BRL", 100)); ("BSD", ("BSD", 100)); ("BTN", ("BTN", 100)); ("BWP", ("BWP", 100));
    ("BYN", ("BYN", 100)); ("BZD", ("BZD", 100)); ("CAD", ("CAD", 100)); ("CDF", ("CDF", 100)); ("CHE", ("CHE", 100));
    ("CHF", ("CHF", 100)); ("CHW", ("CHW", 100)); ("CLF", ("CLF", 100)); ("CLP", ("CLP", 1)); ("CNY", ("CNY", 100));
    ("COP", ("COP", 100)); ("COU", ("COU", 100)); ("CRC", ("CRC", 100)); ("CUC", ("CUC", 100)); ("CUP", ("CUP", 100));
    ("CVE", ("CVE", 100)); ("CZK", ("CZK", 100)); ("DJF", ("DJF", 1)); ("DKK", ("DKK", 100)); ("DOP", ("DOP", 100));
    ("DZD", ("DZD", 100)); ("EGP", ("EGP", 100)); ("ERN", ("ERN", 100)); ("ETB", ("ETB", 100)); ("EUR", ("EUR", 100));
    ("FJD", ("FJD", 100)); ("FKP", ("FKP", 100)); ("GBP", ("GBP", 100)); ("GEL", ("GEL", 100)); ("GHS", ("GHS", 100));
    ("GIP", ("GIP", 100)); ("GMD", ("GMD", 100)); ("GNF", ("GNF", 1)); ("GTQ", ("GTQ", 100)); ("GYD", ("GYD", 100));
    ("HKD", ("HKD", 100)); ("HNL", ("HNL", 100)); ("HRK", ("HRK", 100)); ("HTG", ("HTG", 100)); ("HUF", ("HUF", 100));
    ("IDR", ("IDR", 100)); ("ILS", ("ILS", 100)); ("INR", ("INR", 100)); ("IQD", ("IQD", 1000));
    ("IRR", ("IRR", 100)); ("ISK", ("ISK", 1)); ("JMD", ("JMD", 100)); ("JOD", ("JOD", 1000)); ("JPY", ("JPY", 1));
    ("KES", ("KES", 100)); ("KGS", ("KGS", 100)); ("KHR", ("KHR", 100)); ("KMF", ("KMF", 1)); ("KPW", ("KPW", 100));
    ("KRW", ("KRW", 1)); ("KWD", ("KWD", 1000)); ("KYD", ("KYD", 100)); ("KZT", ("KZT", 100)); ("LAK", ("LAK", 100));
    ("LBP", ("LBP", 100)); ("LKR", ("LKR", 100)); ("LRD", ("LRD", 100)); ("LSL", ("LSL", 100));
    ("LYD", ("LYD", 1000)); ("MAD", ("MAD", 100)); ("MDL", ("MDL", 100)); ("MGA", ("MGA", 100));
    ("MKD", ("MKD", 100)); ("MMK", ("MMK", 100)); ("MNT", ("MNT", 100)); ("MOP", ("MOP", 100)); ("MRU", ("MRU", 100));
    ("MUR", ("MUR", 100)); ("MVR", ("MVR", 100)); ("MWK", ("MWK", 100)); ("MXN", ("MXN", 100)); ("MXV", ("MXV", 100));
    ("MYR", ("MYR", 100)); ("MZN", ("MZN", 100)); ("NAD", ("NAD", 100)); ("NGN", ("NGN", 100)); ("NIO", ("NIO", 100));
    ("NOK", ("NOK", 100)); ("NPR", ("NPR", 100)); ("NZD", ("NZD", 100)); ("OMR", ("OMR", 1000));
    ("PAB", ("PAB", 100)); ("PEN", ("PEN", 100)); ("PGK", ("PGK", 100)); ("PHP", ("PHP", 100)); ("PKR", ("PKR", 100));
    ("PLN", ("PLN", 100)); ("PYG", ("PYG", 1)); ("QAR", ("QAR", 100)); ("RON", ("RON", 100)); ("RSD", ("RSD", 100));
    ("RUB", ("RUB", 100)); ("RWF", ("RWF", 1)); ("SAR", ("SAR", 100)); ("SBD", ("SBD", 100)); ("SCR", ("SCR", 100));
    ("SDG", ("SDG", 100)); ("SEK", ("SEK", 100)); ("SGD", ("SGD", 100)); ("SHP", ("SHP", 100)); ("SLL", ("SLL", 100));
    ("SOS", ("SOS", 100)); ("SRD", ("SRD", 100)); ("SSP", ("SSP", 100)); ("STN", ("STN", 100)); ("SVC", ("SVC", 100));
    ("SYP", ("SYP", 100)); ("SZL", ("SZL", 100)); ("THB", ("THB", 100)); ("TJS", ("TJS", 100)); ("TMT", ("TMT", 100));
    ("TND", ("TND", 100)); ("TOP", ("TOP", 100)); ("TRY", ("TRY", 100)); ("TTD", ("TTD", 100)); ("TWD", ("TWD", 100));
    ("TZS", ("TZS", 100)); ("UAH", ("UAH", 100)); ("UGX", ("UGX", 1)); ("USD", ("USD", 100)); ("UYI", ("UYI", 100));
    ("UYU", ("UYU", 100)); ("UZS", ("UZS", 100)); ("VEF", ("VEF", 100)); ("VND", ("VND", 1)); ("VUV", ("VUV", 1));
    ("WST", ("WST", 100)); ("XAF", ("XAF", 1)); ("XAG", ("XAG", 100)); ("XAU", ("XAU", 100)); ("XBA", ("XBA", 100));
    ("XBB", ("XBB", 100)); ("XBC", ("XBC", 100)); ("XBD", ("XBD", 100)); ("XCD", ("XCD", 100)); ("XDR", ("XDR", 100));
    ("XOF", ("XOF", 1)); ("XPD", ("XPD", 100)); ("XPF", ("XPF", 1)); ("XPT", ("XPT", 100)); ("XSU", ("XSU", 100));
    ("XUA", ("XUA", 100)); ("YER", ("YER", 100)); ("ZAR", ("ZAR", 100)); ("ZMW", ("ZMW", 100)); ("ZWL", ("ZWL", 100))].
(** currencies.hpp:236-592: the cases of the switch. *)
Definition currency_cases : list (String.string * String.string) := [
    ("AED", "UAE Dirham"); ("AFN", "Afghani"); ("ALL", "Lek"); ("AMD", "Armenian Dram");
    ("ANG", "Netherlands Antillean Guilder"); ("AOA", "Kwanza"); ("ARS", "Argentine Peso");
    ("AUD", "Australian Dollar"); ("AWG", "Aruban Florin"); ("AZN", "Azerbaijan Manat"); ("BAM", "Convertible Mark");
    ("BBD", "Barbados Dollar"); ("BDT", "Taka"); ("BGN", "Bulgarian Lev"); ("BHD", "Bahraini Dinar");
    ("BIF", "Burundi Franc"); ("BMD", "Bermudian Dollar"); ("BND", "Brunei Dollar"); ("BOB", "Boliviano");
    ("BOV", "Mvdol"); ("BRL", "Brazilian Real"); ("BSD", "Bahamian Dollar"); ("BTN", "Ngultrum"); ("BWP", "Pula");
    ("BYN", "Belarusian Ruble"); ("BZD", "Belize Dollar"); ("CAD", "Canadian Dollar"); ("CDF", "Congolese Franc");
    ("CHE", "WIR Euro"); ("CHF", "Swiss Franc"); ("CHW", "WIR Franc"); ("CLF", "Unidad de Fomento");
    ("CLP", "Chilean Peso"); ("CNY", "Yuan Renminbi"); ("COP", "Colombian Peso"); ("COU", "Unidad de Valor Real");
    ("CRC", "Costa Rican Colon"); ("CUC", "Peso Convertible"); ("CUP", "Cuban Peso"); ("CVE", "Cabo Verde Escudo");
    ("CZK", "Czech Koruna"); ("DJF", "Djibouti Franc"); ("DKK", "Danish Krone"); ("DOP", "Dominican Peso");
    ("DZD", "Algerian Dinar"); ("EGP", "Egyptian Pound"); ("ERN", "Nakfa"); ("ETB", "Ethiopian Birr");
    ("EUR", "Euro"); ("FJD", "Fiji Dollar"); ("FKP", "Falkland Islands Pound"); ("GBP", "Pound Sterling");
    ("GEL", "Lari"); ("GHS", "Ghana Cedi"); ("GIP", "Gibraltar Pound"); ("GMD", "Dalasi"); ("GNF", "Guinean Franc");
    ("GTQ", "Quetzal"); ("GYD", "Guyana Dollar"); ("HKD", "Hong Kong Dollar"); ("HNL", "Lempira"); ("HRK", "Kuna");
    ("HTG", "Gourde"); ("HUF", "Forint"); ("IDR", "Rupiah"); ("ILS", "New Israeli Sheqel"); ("INR", "Indian Rupee");
    ("IQD", "Iraqi Dinar"); ("IRR", "Iranian Rial"); ("ISK", "Iceland Krona"); ("JMD", "Jamaican Dollar");
    ("JOD", "Jordanian Dinar"); ("JPY", "Yen"); ("KES", "Kenyan Shilling"); ("KGS", "Som"); ("KHR", "Riel");
    ("KMF", "Comorian Franc "); ("KPW", "North Korean Won"); ("KRW", "Won"); ("KWD", "Kuwaiti Dinar");
    ("KYD", "Cayman Islands Dollar"); ("KZT", "Tenge"); ("LAK", "Lao Kip"); ("LBP", "Lebanese Pound");
    ("LKR", "Sri Lanka Rupee"); ("LRD", "Liberian Dollar"); ("LSL", "Loti"); ("LYD", "Libyan Dinar");
    ("MAD", "Moroccan Dirham"); ("MDL", "Moldovan Leu"); ("MGA", "Malagasy Ariary"); ("MKD", "Denar");
    ("MMK", "Kyat"); ("MNT", "Tugrik"); ("MOP", "Pataca"); ("MRU", "Ouguiya"); ("MUR", "Mauritius Rupee");
    ("MVR", "Rufiyaa"); ("MWK", "Malawi Kwacha"); ("MXN", "Mexican Peso");
    ("MXV", "Mexican Unidad de Inversion (UDI)"); ("MYR", "Malaysian Ringgit"); ("MZN", "Mozambique Metical");
    ("NAD", "Namibia Dollar"); ("NGN", "Naira"); ("NIO", "Cordoba Oro"); ("NOK", "Norwegian Krone");
    ("NPR", "Nepalese Rupee"); ("NZD", "New Zealand Dollar"); ("OMR", "Rial Omani"); ("PAB", "Balboa");
    ("PEN", "Sol"); ("PGK", "Kina"); ("PHP", "Philippine Piso"); ("PKR", "Pakistan Rupee"); ("PLN", "Zloty");
    ("PYG", "Guarani"); ("QAR", "Qatari Rial"); ("RON", "Romanian Leu"); ("RSD", "Serbian Dinar");
    ("RUB", "Russian Ruble"); ("RWF", "Rwanda Franc"); ("SAR", "Saudi Riyal"); ("SBD", "Solomon Islands Dollar");
    ("SCR", "Seychelles Rupee"); ("SDG", "Sudanese Pound"); ("SEK", "Swedish Krona"); ("SGD", "Singapore Dollar");
    ("SHP", "Saint Helena Pound"); ("SLL", "Leone"); ("SOS", "Somali Shilling"); ("SRD", "Surinam Dollar");
    ("SSP", "South Sudanese Pound"); ("STN", "Dobra"); ("SVC", "El Salvador Colon"); ("SYP", "Syrian Pound");
    ("SZL", "Lilangeni"); ("THB", "Baht"); ("TJS", "Somoni"); ("TMT", "Turkmenistan New Manat");
    ("TND", "Tunisian Dinar"); ("TOP", "Pa’anga"); ("TRY", "Turkish Lira"); ("TTD", "Trinidad and Tobago Dollar");
    ("TWD", "New Taiwan Dollar"); ("TZS", "Tanzanian Shilling"); ("UAH", "Hryvnia"); ("UGX", "Uganda Shilling");
    ("USD", "US Dollar"); ("UYI", "Uruguay Peso en Unidades Indexadas (URUIURUI)"); ("UYU", "Peso Uruguayo");
    ("UZS", "Uzbekistan Sum"); ("VEF", "Bolívar"); ("VND", "Dong"); ("VUV", "Vatu"); ("WST", "Tala");
    ("XAF", "CFA Franc BEAC"); ("XAG", "Silver"); ("XAU", "Gold");
    ("XBA", "Bond Markets Unit European Composite Unit (EURCO)");
    ("XBB", "Bond Markets Unit European Monetary Unit (E.M.U.-6)");
    ("XBC", "Bond Markets Unit European Unit of Account 9 (E.U.A.-9)");
    ("XBD", "Bond Markets Unit European Unit of Account 17 (E.U.A.-17)"); ("XCD", "East Caribbean Dollar");
    ("XDR", "SDR (Special Drawing Right)"); ("XOF", "CFA Franc BCEAO"); ("XPD", "Palladium"); ("XPF", "CFP Franc");
    ("XPT", "Platinum"); ("XSU", "Sucre"); ("XUA", "ADB Unit of Account"); ("YER", "Yemeni Rial"); ("ZAR", "Rand");
    ("ZMW", "Zambian Kwacha"); ("ZWL", "Zimbabwe Dollar")].
(** The constant with a name; the zero code does not occur for the cases. *)
Definition currency_constant (name : String.string) : currency :=
  match find (fun e => String.eqb (fst e) name) currency_constants with
  | Some (_, (code, d)) => match codes code with [a; b; c] => mk_currency a b c d | _ => mk_currency 0 0 0 d end
  | None => mk_currency 0 0 0 1
  end.
(** currencies.hpp:231-597 [currency_name]: a switch over the hash, which lines 221-229 repeat. *)
Definition currency_name (c : currency) : list Z :=
  match find (fun e => ccy_hash (currency_constant (fst e)) =? ccy_hash c) currency_cases with
  | Some (_, name) => codes name
  | None => [c0 c; c1 c; c2 c]
  end.

(** *** countries.hpp:39-287: the name of the constant and the code. *)
Definition country_constants : list (String.string * String.string) := [
    ("AD", "AD"); ("AE", "AE"); ("AF", "AF"); ("AG", "AG"); ("AI", "AI"); ("AL", "AL"); ("AM", "AM"); ("AO", "AO");
    ("AQ", "AQ"); ("AR", "AR"); ("AS", "AS"); ("AT", "AT"); ("AU", "AU"); ("AW", "AW"); ("AX", "AX"); ("AZ", "AZ");
    ("BA", "BA"); ("BB", "BB"); ("BD", "BD"); ("BE", "BE"); ("BF", "BF"); ("BG", "BG"); ("BH", "BH"); ("BI", "BI");
    ("BJ", "BJ"); ("BL", "BL"); ("BM", "BM"); ("BN", "BN"); ("BO", "BO"); ("BQ", "BQ"); ("BR", "BR"); ("BS", "BS");
    ("BT", "BT"); ("BV", "BV"); ("BW", "BW"); ("BY", "BY"); ("BZ", "BZ"); ("CA", "CA"); ("CC", "CC"); ("CD", "CD");
    ("CF", "CF"); ("CG", "CG"); ("CH", "CH"); ("CI", "CI"); ("CK", "CK"); ("CL", "CL"); ("CM", "CM"); ("CN", "CN");
    ("CO", "CO"); ("CR", "CR"); ("CU", "CU"); ("CV", "CV"); ("CW", "CW"); ("CX", "CX"); ("CY", "CY"); ("CZ", "CZ");
    ("DE", "DE"); ("DJ", "DJ"); ("DK", "DK"); ("DM", "DM"); ("DO", "DO"); ("DZ", "DZ"); ("EC", "EC"); ("EE", "EE");
    ("EG", "EG"); ("EH", "EH"); ("ER", "ER"); ("ES", "ES"); ("ET", "ET"); ("FI", "FI"); ("FJ", "FJ"); ("FK", "FK");
    ("FM", "FM"); ("FO", "FO"); ("FR", "FR"); ("GA", "GA"); ("GB", "GB"); ("GD", "GD"); ("GE", "GE"); ("GF", "GF");
    ("GG", "GG"); ("GH", "GH"); ("GI", "GI"); ("GL", "GL"); ("GM", "GM"); ("GN", "GN"); ("GP", "GP"); ("GQ", "GQ");
    ("GR", "GR"); ("GS", "GS"); ("GT", "GT"); ("GU", "GU"); ("GW", "GW"); ("GY", "GY"); ("HK", "HK"); ("HM", "HM");
    ("HN", "HN"); ("HR", "HR"); ("HT", "HT"); ("HU", "HU"); ("ID", "ID"); ("IE", "IE"); ("IL", "IL"); ("IM", "IM");
    ("IO", "IO"); ("IQ", "IQ"); ("IR", "IR"); ("IS", "IS"); ("IT", "IT"); ("JE", "JE"); ("JM", "JM"); ("JO", "JO");
    ("JP", "JP"); ("KE", "KE"); ("KG", "KG"); ("KH", "KH"); ("KI", "KI"); ("KM", "KM"); ("KN", "KN"); ("KP", "KP");
    ("KR", "KR"); ("KW", "KW"); ("KY", "KY"); ("KZ", "KZ"); ("LA", "LA"); ("LB", "LB"); ("LC", "LC"); ("LI", "LI");
    ("LK", "LK"); ("LR", "LR"); ("LS", "LS"); ("LT", "LT"); ("LU", "LU"); ("LV", "LV"); ("LY", "LY"); ("MA", "MA");
    ("MC", "MC"); ("MD", "MD"); ("ME", "ME"); ("MF", "MF"); ("MG", "MG"); ("MH", "MH"); ("MK", "MK"); ("ML", "ML");
    ("MM", "MM"); ("MN", "MN"); ("MO", "MO"); ("MP", "MP"); ("MQ", "MQ"); ("MR", "MR"); ("MS", "MS"); ("MT", "MT");
    ("MU", "MU"); ("MV", "MV"); ("MW", "MW"); ("MX", "MX"); ("MY", "MY"); ("MZ", "MZ"); ("NA", "NA"); ("NC", "NC");
    ("NE", "NE"); ("NF", "NF"); ("NG", "NG"); ("NI", "NI"); ("NL", "NL"); ("NO", "NO"); ("NP", "NP"); ("NR", "NR");
    ("NU", "NU"); ("NZ", "NZ"); ("OM", "OM"); ("PA", "PA"); ("PE", "PE"); ("PF", "PF"); ("PG", "PG"); ("PH", "PH");
    ("PK", "PK"); ("PL", "PL"); ("PM", "PM"); ("PN", "PN"); ("PR", "PR"); ("PS", "PS"); ("PT", "PT"); ("PW", "PW");
    ("PY", "PY"); ("QA", "QA"); ("RE", "RE"); ("RO", "RO"); ("RS", "RS"); ("RU", "RU"); ("RW", "RW"); ("SA", "SA");
    ("SB", "SB"); ("SC", "SC"); ("SD", "SD"); ("SE", "SE"); ("SG", "SG"); ("SH", "SH"); ("SI", "SI"); ("SJ", "SJ");
    ("SK", "SK"); ("SL", "SL"); ("SM", "SM"); ("SN", "SN"); ("SO", "SO"); ("SR", "SR"); ("SS", "SS"); ("ST", "ST");
    ("SV", "SV"); ("SX", "SX"); ("SY", "SY"); ("SZ", "SZ"); ("TC", "TC"); ("TD", "TD"); ("TF", "TF"); ("TG", "TG");
    ("TH", "TH"); ("TJ", "TJ"); ("TK", "TK"); ("TL", "TL"); ("TM", "TM"); ("TN", "TN"); ("TO", "TO"); ("TR", "TR");
    ("TT", "TT"); ("TV", "TV"); ("TW", "TW"); ("TZ", "TZ"); ("UA", "UA"); ("UG", "UG"); ("UM", "UM"); ("US", "US");
    ("UY", "UY"); ("UZ", "UZ"); ("VA", "VA"); ("VC", "VC"); ("VE", "VE"); ("VG", "VG"); ("VI", "VI"); ("VN", "VN");
    ("VU", "VU"); ("WF", "WF"); ("WS", "WS"); ("YE", "YE"); ("YT", "YT"); ("ZA", "ZA"); ("ZM", "ZM"); ("ZW", "ZW")].
(** countries.hpp:305-800: the cases of the switch; that of India is a comment. *)
Definition country_cases : list (String.string * String.string) := [
    ("AE", "United Arab Emirates"); ("AF", "Afghanistan"); ("AG", "Antigua and Barbuda"); ("AI", "Anguilla");
    ("AL", "Albania"); ("AM", "Armenia"); ("AO", "Angola"); ("AQ", "Antarctica"); ("AR", "Argentina");
    ("AS", "American Samoa"); ("AT", "Austria"); ("AU", "Australia"); ("AW", "Aruba"); ("AX", "Åland Islands");
    ("AZ", "Azerbaijan"); ("BA", "Bosnia and Herzegovina"); ("BB", "Barbados"); ("BD", "Bangladesh");
    ("BE", "Belgium"); ("BF", "Burkina Faso"); ("BG", "Bulgaria"); ("BH", "Bahrain"); ("BI", "Burundi");
    ("BJ", "Benin"); ("BL", "Saint Barthélemy"); ("BM", "Bermuda"); ("BN", "Brunei Darussalam");
    ("BO", "Plurinational State of Bolivia"); ("BQ", "Bonaire, Sint Eustatius and Saba"); ("BR", "Brazil");
    ("BS", "Bahamas"); ("BT", "Bhutan"); ("BV", "Bouvet Island"); ("BW", "Botswana"); ("BY", "Belarus");
    ("BZ", "Belize"); ("CA", "Canada"); ("CC", "Cocos (Keeling) Islands");
    ("CD", "the Democratic Republic of the Congo"); ("CF", "Central African Republic"); ("CG", "Congo");
    ("CH", "Switzerland"); ("CI", "Côte d'Ivoire"); ("CK", "Cook Islands"); ("CL", "Chile"); ("CM", "Cameroon");
    ("CN", "China"); ("CO", "Colombia"); ("CR", "Costa Rica"); ("CU", "Cuba"); ("CV", "Cabo Verde");
    ("CW", "Curaçao"); ("CX", "Christmas Island"); ("CY", "Cyprus"); ("CZ", "Czechia"); ("DE", "Germany");
    ("DJ", "Djibouti"); ("DK", "Denmark"); ("DM", "Dominica"); ("DO", "Dominican Republic"); ("DZ", "Algeria");
    ("EC", "Ecuador"); ("EE", "Estonia"); ("EG", "Egypt"); ("EH", "Western Sahara"); ("ER", "Eritrea");
    ("ES", "Spain"); ("ET", "Ethiopia"); ("FI", "Finland"); ("FJ", "Fiji"); ("FK", "Falkland Islands (Malvinas)");
    ("FM", "Federated States of Micronesia"); ("FO", "Faroe Islands"); ("FR", "France"); ("GA", "Gabon");
    ("GB", "United Kingdom of Great Britain and Northern Ireland"); ("GD", "Grenada"); ("GE", "Georgia");
    ("GF", "French Guiana"); ("GG", "Guernsey"); ("GH", "Ghana"); ("GI", "Gibraltar"); ("GL", "Greenland");
    ("GM", "Gambia"); ("GN", "Guinea"); ("GP", "Guadeloupe"); ("GQ", "Equatorial Guinea"); ("GR", "Greece");
    ("GS", "South Georgia and the South Sandwich Islands"); ("GT", "Guatemala"); ("GU", "Guam");
    ("GW", "Guinea-Bissau"); ("GY", "Guyana"); ("HK", "Hong Kong"); ("HM", "Heard Island and McDonald Islands");
    ("HN", "Honduras"); ("HR", "Croatia"); ("HT", "Haiti"); ("HU", "Hungary"); ("ID", "Indonesia"); ("IE", "Ireland");
    ("IL", "Israel"); ("IM", "Isle of Man"); ("IO", "British Indian Ocean Territory"); ("IQ", "Iraq");
    ("IR", "Islamic Republic of Iran"); ("IS", "Iceland"); ("IT", "Italy"); ("JE", "Jersey"); ("JM", "Jamaica");
    ("JO", "Jordan"); ("JP", "Japan"); ("KE", "Kenya"); ("KG", "Kyrgyzstan"); ("KH", "Cambodia"); ("KI", "Kiribati");
    ("KM", "Comoros"); ("KN", "Saint Kitts and Nevis"); ("KP", "Democratic People's Republic of Korea");
    ("KR", "Republic of Korea"); ("KW", "Kuwait"); ("KY", "Cayman Islands"); ("KZ", "Kazakhstan");
    ("LA", "Lao People's Democratic Republic"); ("LB", "Lebanon"); ("LC", "Saint Lucia"); ("LI", "Liechtenstein");
    ("LK", "Sri Lanka"); ("LR", "Liberia"); ("LS", "Lesotho"); ("LT", "Lithuania"); ("LU", "Luxembourg");
    ("LV", "Latvia"); ("LY", "Libya"); ("MA", "Morocco"); ("MC", "Monaco"); ("MD", "Republic of Moldova");
    ("ME", "Montenegro"); ("MF", "Saint Martin (French part)"); ("MG", "Madagascar"); ("MH", "Marshall Islands");
    ("MK", "the former Yugoslav Republic of Macedonia"); ("ML", "Mali"); ("MM", "Myanmar"); ("MN", "Mongolia");
    ("MO", "Macao"); ("MP", "Northern Mariana Islands"); ("MQ", "Martinique"); ("MR", "Mauritania");
    ("MS", "Montserrat"); ("MT", "Malta"); ("MU", "Mauritius"); ("MV", "Maldives"); ("MW", "Malawi");
    ("MX", "Mexico"); ("MY", "Malaysia"); ("MZ", "Mozambique"); ("NA", "Namibia"); ("NC", "New Caledonia");
    ("NE", "Niger"); ("NF", "Norfolk Island"); ("NG", "Nigeria"); ("NI", "Nicaragua"); ("NL", "Netherlands");
    ("NO", "Norway"); ("NP", "Nepal"); ("NR", "Nauru"); ("NU", "Niue"); ("NZ", "New Zealand"); ("OM", "Oman");
    ("PA", "Panama"); ("PE", "Peru"); ("PF", "French Polynesia"); ("PG", "Papua New Guinea"); ("PH", "Philippines");
    ("PK", "Pakistan"); ("PL", "Poland"); ("PM", "Saint Pierre and Miquelon"); ("PN", "Pitcairn");
    ("PR", "Puerto Rico"); ("PS", "State of Palestine"); ("PT", "Portugal"); ("PW", "Palau"); ("PY", "Paraguay");
    ("QA", "Qatar"); ("RE", "Réunion"); ("RO", "Romania"); ("RS", "Serbia"); ("RU", "Russian Federation");
    ("RW", "Rwanda"); ("SA", "Saudi Arabia"); ("SB", "Solomon Islands"); ("SC", "Seychelles"); ("SD", "Sudan");
    ("SE", "Sweden"); ("SG", "Singapore"); ("SH", "Saint Helena, Ascension and Tristan da Cunha"); ("SI", "Slovenia");
    ("SJ", "Svalbard and Jan Mayen"); ("SK", "Slovakia"); ("SL", "Sierra Leone"); ("SM", "San Marino");
    ("SN", "Senegal"); ("SO", "Somalia"); ("SR", "Suriname"); ("SS", "South Sudan"); ("ST", "Sao Tome and Principe");
    ("SV", "El Salvador"); ("SX", "Sint Maarten (Dutch part)"); ("SY", "Syrian Arab Republic"); ("SZ", "Swaziland");
    ("TC", "Turks and Caicos Islands"); ("TD", "Chad"); ("TF", "French Southern Territories"); ("TG", "Togo");
    ("TH", "Thailand"); ("TJ", "Tajikistan"); ("TK", "Tokelau"); ("TL", "Timor-Leste"); ("TM", "Turkmenistan");
    ("TN", "Tunisia"); ("TO", "Tonga"); ("TR", "Turkey"); ("TT", "Trinidad and Tobago"); ("TV", "Tuvalu");
    ("TW", "Taiwan, Province of China"); ("TZ", "United Republic of Tanzania"); ("UA", "Ukraine"); ("UG", "Uganda");
    ("UM", "United States Minor Outlying Islands"); ("US", "United States of America"); ("UY", "Uruguay");
    ("UZ", "Uzbekistan"); ("VA", "Holy See"); ("VC", "Saint Vincent and the Grenadines");
    ("VE", "Bolivarian Republic of Venezuela"); ("VG", "British Virgin Islands"); ("VI", "U.S. Virgin Islands");
    ("VN", "Viet Nam"); ("VU", "Vanuatu"); ("WF", "Wallis and Futuna"); ("WS", "Samoa"); ("YE", "Yemen");
    ("YT", "Mayotte"); ("ZA", "South Africa"); ("ZM", "Zambia"); ("ZW", "Zimbabwe")].
Definition country_constant (name : String.string) : list Z :=
  match find (fun e => String.eqb (fst e) name) country_constants with Some (_, code) => codes code | None => [0; 0] end.
(** countries.hpp:299-805 [country_name]: a switch over the hash of line 291-296, that of [country_hash]. *)
Definition country_name (c : list Z) : list Z :=
  match find (fun e => country_hash (country_constant (fst e)) =? country_hash c) country_cases with
  | Some (_, name) => codes name
  | None => codes "iso_3166_1_alpha_2 " ++ c
  end.

(** *** jurisdictions.hpp:35-278: the name of the constant, the sovereign and the tender. *)
Definition jurisdiction_constants : list (String.string * (String.string * String.string)) := [
    ("AF", ("AF", "AFN")); ("AL", ("AL", "ALL")); ("DZ", ("DZ", "DZD")); ("AS", ("AS", "USD")); ("AD", ("AD", "EUR"));
    ("AO", ("AO", "AOA")); ("AI", ("AI", "XCD")); ("AG", ("AG", "XCD")); ("AR", ("AR", "ARS")); ("AM", ("AM", "AMD"));
    ("AW", ("AW", "AWG")); ("AU", ("AU", "AUD")); ("AT", ("AT", "EUR")); ("AZ", ("AZ", "AZN")); ("BS", ("BS", "BSD"));
    ("BH", ("BH", "BHD")); ("BD", ("BD", "BDT")); ("BB", ("BB", "BBD")); ("BY", ("BY", "BYN")); ("BE", ("BE", "EUR"));
    ("BZ", ("BZ", "BZD")); ("BJ", ("BJ", "XOF")); ("BM", ("BM", "BMD")); ("BT", ("BT", "BTN")); ("BO", ("BO", "BOB"));
    ("BQ", ("BQ", "USD")); ("BA", ("BA", "BAM")); ("BW", ("BW", "BWP")); ("BV", ("BV", "NOK")); ("BR", ("BR", "BRL"));
    ("IO", ("IO", "USD")); ("VG", ("VG", "USD")); ("BN", ("BN", "BND")); ("BG", ("BG", "BGN")); ("BF", ("BF", "XOF"));
    ("BI", ("BI", "BIF")); ("CV", ("CV", "CVE")); ("KH", ("KH", "KHR")); ("CM", ("CM", "XAF")); ("CA", ("CA", "CAD"));
    ("KY", ("KY", "KYD")); ("CF", ("CF", "XAF")); ("TD", ("TD", "XAF")); ("CL", ("CL", "CLP")); ("CN", ("CN", "CNY"));
    ("HK", ("HK", "HKD")); ("MO", ("MO", "MOP")); ("CX", ("CX", "AUD")); ("CC", ("CC", "AUD")); ("CO", ("CO", "COP"));
    ("KM", ("KM", "KMF")); ("CG", ("CG", "XAF")); ("CK", ("CK", "NZD")); ("CR", ("CR", "CRC")); ("HR", ("HR", "HRK"));
    ("CU", ("CU", "CUP")); ("CW", ("CW", "ANG")); ("CY", ("CY", "EUR")); ("CZ", ("CZ", "CZK")); ("CI", ("CI", "XOF"));
    ("KP", ("KP", "KPW")); ("CD", ("CD", "CDF")); ("DK", ("DK", "DKK")); ("DJ", ("DJ", "DJF")); ("DM", ("DM", "XCD"));
    ("DO", ("DO", "DOP")); ("EC", ("EC", "USD")); ("EG", ("EG", "EGP")); ("SV", ("SV", "SVC")); ("GQ", ("GQ", "XAF"));
    ("ER", ("ER", "ERN")); ("EE", ("EE", "EUR")); ("ET", ("ET", "ETB")); ("FO", ("FO", "DKK")); ("FJ", ("FJ", "FJD"));
    ("FI", ("FI", "EUR")); ("FR", ("FR", "EUR")); ("GF", ("GF", "EUR")); ("PF", ("PF", "XPF")); ("TF", ("TF", "EUR"));
    ("GA", ("GA", "XAF")); ("GM", ("GM", "GMD")); ("GE", ("GE", "GEL")); ("DE", ("DE", "EUR")); ("GH", ("GH", "GHS"));
    ("GI", ("GI", "GIP")); ("GR", ("GR", "EUR")); ("GL", ("GL", "DKK")); ("GD", ("GD", "XCD")); ("GP", ("GP", "EUR"));
    ("GU", ("GU", "USD")); ("GT", ("GT", "GTQ")); ("GG", ("GG", "GBP")); ("GN", ("GN", "GNF")); ("GW", ("GW", "XOF"));
    ("GY", ("GY", "GYD")); ("HT", ("HT", "HTG")); ("HM", ("HM", "AUD")); ("VA", ("VA", "EUR")); ("HN", ("HN", "HNL"));
    ("HU", ("HU", "HUF")); ("IS", ("IS", "ISK")); ("ID", ("ID", "IDR")); ("IR", ("IR", "IRR")); ("IQ", ("IQ", "IQD"));
    ("IE", ("IE", "EUR")); ("IM", ("IM", "GBP")); ("IL", ("IL", "ILS")); ("IT", ("IT", "EUR")); ("JM", ("JM", "JMD"));
    ("JP", ("JP", "JPY")); ("JE", ("JE", "GBP")); ("JO", ("JO", "JOD")); ("KZ", ("KZ", "KZT")); ("KE", ("KE", "KES"));
    ("KI", ("KI", "AUD")); ("KW", ("KW", "KWD")); ("KG", ("KG", "KGS")); ("LA", ("LA", "LAK")); ("LV", ("LV", "EUR"));
    ("LB", ("LB", "LBP")); ("LS", ("LS", "LSL")); ("LR", ("LR", "LRD")); ("LY", ("LY", "LYD")); ("LI", ("LI", "CHF"));
    ("LT", ("LT", "EUR")); ("LU", ("LU", "EUR")); ("MG", ("MG", "MGA")); ("MW", ("MW", "MWK")); ("MY", ("MY", "MYR"));
    ("MV", ("MV", "MVR")); ("ML", ("ML", "XOF")); ("MT", ("MT", "EUR")); ("MH", ("MH", "USD")); ("MQ", ("MQ", "EUR"));
    ("MR", ("MR", "MRU")); ("MU", ("MU", "MUR")); ("YT", ("YT", "EUR")); ("MX", ("MX", "MXN")); ("FM", ("FM", "USD"));
    ("MC", ("MC", "EUR")); ("MN", ("MN", "MNT")); ("ME", ("ME", "EUR")); ("MS", ("MS", "XCD")); ("MA", ("MA", "MAD"));
    ("MZ", ("MZ", "MZN")); ("MM", ("MM", "MMK")); ("NA", ("NA", "NAD")); ("NR", ("NR", "AUD")); ("NP", ("NP", "NPR"));
    ("NL", ("NL", "EUR")); ("NC", ("NC", "XPF")); ("NZ", ("NZ", "NZD")); ("NI", ("NI", "NIO")); ("NE", ("NE", "XOF"));
    ("NG", ("NG", "NGN")); ("NU", ("NU", "NZD")); ("NF", ("NF", "AUD")); ("MP", ("MP", "USD")); ("NO", ("NO", "NOK"));
    ("OM", ("OM", "OMR")); ("PK", ("PK", "PKR")); ("PW", ("PW", "USD")); ("PA", ("PA", "PAB")); ("PG", ("PG", "PGK"));
    ("PY", ("PY", "PYG")); ("PE", ("PE", "PEN")); ("PH", ("PH", "PHP")); ("PN", ("PN", "NZD")); ("PL", ("PL", "PLN"));
    ("PT", ("PT", "EUR")); ("PR", ("PR", "USD")); ("QA", ("QA", "QAR")); ("KR", ("KR", "KRW")); ("MD", ("MD", "MDL"));
    ("RO", ("RO", "RON")); ("RU", ("RU", "RUB")); ("RW", ("RW", "RWF")); ("RE", ("RE", "EUR")); ("BL", ("BL", "EUR"));
    ("SH", ("SH", "SHP")); ("KN", ("KN", "XCD")); ("LC", ("LC", "XCD")); ("MF", ("MF", "EUR")); ("PM", ("PM", "EUR"));
    ("VC", ("VC", "XCD")); ("WS", ("WS", "WST")); ("SM", ("SM", "EUR")); ("ST", ("ST", "STN")); ("SA", ("SA", "SAR"));
    ("SN", ("SN", "XOF")); ("RS", ("RS", "RSD")); ("SC", ("SC", "SCR")); ("SL", ("SL", "SLL")); ("SG", ("SG", "SGD"));
    ("SX", ("SX", "ANG")); ("SK", ("SK", "EUR")); ("SI", ("SI", "EUR")); ("SB", ("SB", "SBD")); ("SO", ("SO", "SOS"));
    ("ZA", ("ZA", "ZAR")); ("SS", ("SS", "SSP")); ("ES", ("ES", "EUR")); ("LK", ("LK", "LKR")); ("SD", ("SD", "SDG"));
    ("SR", ("SR", "SRD")); ("SJ", ("SJ", "NOK")); ("SZ", ("SZ", "SZL")); ("SE", ("SE", "SEK")); ("CH", ("CH", "CHF"));
    ("SY", ("SY", "SYP")); ("TJ", ("TJ", "TJS")); ("TH", ("TH", "THB")); ("MK", ("MK", "MKD")); ("TL", ("TL", "USD"));
    ("TG", ("TG", "XOF")); ("TK", ("TK", "NZD")); ("TO", ("TO", "TOP")); ("TT", ("TT", "TTD")); ("TN", ("TN", "TND"));
    ("TR", ("TR", "TRY")); ("TM", ("TM", "TMT")); ("TC", ("TC", "USD")); ("TV", ("TV", "AUD")); ("UG", ("UG", "UGX"));
    ("UA", ("UA", "UAH")); ("AE", ("AE", "AED")); ("GB", ("GB", "GBP")); ("TZ", ("TZ", "TZS")); ("UM", ("UM", "USD"));
    ("VI", ("VI", "USD")); ("US", ("US", "USD")); ("UY", ("UY", "UYU")); ("UZ", ("UZ", "UZS")); ("VU", ("VU", "VUV"));
    ("VE", ("VE", "VEF")); ("VN", ("VN", "VND")); ("WF", ("WF", "XPF")); ("EH", ("EH", "MAD")); ("YE", ("YE", "YER"));
    ("ZM", ("ZM", "ZMW")); ("ZW", ("ZW", "ZWL")); ("AX", ("AX", "EUR"))].
(** jurisdiction.hpp:44-56. *)
Definition jurisdiction : Type := list Z * currency.
Definition jurisdiction_constant (name : String.string) : option jurisdiction :=
  match find (fun e => String.eqb (fst e) name) jurisdiction_constants with
  | Some (_, (s, t)) => Some (country_constant s, currency_constant t)
  | None => None
  end.
(** jurisdiction.hpp:74-81 [hash]: that of the sovereign. *)
Definition jurisdiction_hash (j : jurisdiction) : Z := country_hash (fst j).
