(** Model of angles in degrees.

    poseidon/geometry.hpp, poseidon/src/geometry.cpp *)
From Coq Require Import List ZArith Bool.
From Verif Require Import Base.
Import ListNotations.
Open Scope list_scope.
Open Scope Z_scope.

(** A 32-bit value as [int]. geometry.hpp:44-62 *)
Definition to_int (x : Z) : Z := if x <? 2147483648 then x else x - 4294967296.

(** [reduce360]. The arithmetic is unsigned.
    poseidon/geometry.hpp:44-52 *)
Definition reduce360 (t : Z) : Z := to_int ((t mod 4294967296 + 2147483160) mod 4294967296 mod 360).

(** [reduce180].
    poseidon/geometry.hpp:54-62 *)
Definition reduce180 (t : Z) : Z :=
  to_int (((t mod 4294967296 + 2147483339) mod 4294967296 mod 360 - 179) mod 4294967296).

(** The columns of [s_trig_table]: the sines and the cosines in units of 1e-10,
    and the tangents in units of 1e-9, where [None] is [HUGE_VAL]. They are
    float literals; their rounding to float is not modelled.
    poseidon/src/geometry.cpp:9-371 *)
Definition sin_table : list Z :=
  [0; 174524064; 348994967; 523359562; 697564737; 871557427; 1045284633; 1218693434; 
   1391731010; 1564344650; 1736481777; 1908089954; 2079116908; 2249510543; 2419218956; 
   2588190451; 2756373558; 2923717047; 3090169944; 3255681545; 3420201433; 3583679495; 
   3746065934; 3907311285; 4067366431; 4226182617; 4383711468; 4539904997; 4694715628; 
   4848096202; 5000000000; 5150380749; 5299192642; 5446390350; 5591929035; 5735764364; 
   5877852523; 6018150232; 6156614753; 6293203910; 6427876097; 6560590290; 6691306064; 
   6819983601; 6946583705; 7071067812; 7193398003; 7313537016; 7431448255; 7547095802; 
   7660444431; 7771459615; 7880107536; 7986355100; 8090169944; 8191520443; 8290375726; 
   8386705679; 8480480962; 8571673007; 8660254038; 8746197071; 8829475929; 8910065242; 
   8987940463; 9063077870; 9135454576; 9205048535; 9271838546; 9335804265; 9396926208; 
   9455185756; 9510565163; 9563047560; 9612616959; 9659258263; 9702957263; 9743700648; 
   9781476007; 9816271834; 9848077530; 9876883406; 9902680687; 9925461516; 9945218954; 
   9961946981; 9975640503; 9986295348; 9993908270; 9998476952; 10000000000; 9998476952; 
   9993908270; 9986295348; 9975640503; 9961946981; 9945218954; 9925461516; 9902680687; 
   9876883406; 9848077530; 9816271834; 9781476007; 9743700648; 9702957263; 9659258263; 
   9612616959; 9563047560; 9510565163; 9455185756; 9396926208; 9335804265; 9271838546; 
   9205048535; 9135454576; 9063077870; 8987940463; 8910065242; 8829475929; 8746197071; 
   8660254038; 8571673007; 8480480962; 8386705679; 8290375726; 8191520443; 8090169944; 
   7986355100; 7880107536; 7771459615; 7660444431; 7547095802; 7431448255; 7313537016; 
   7193398003; 7071067812; 6946583705; 6819983601; 6691306064; 6560590290; 6427876097; 
   6293203910; 6156614753; 6018150232; 5877852523; 5735764364; 5591929035; 5446390350; 
   5299192642; 5150380749; 5000000000; 4848096202; 4694715628; 4539904997; 4383711468; 
   4226182617; 4067366431; 3907311285; 3746065934; 3583679495; 3420201433; 3255681545; 
   3090169944; 2923717047; 2756373558; 2588190451; 2419218956; 2249510543; 2079116908; 
   1908089954; 1736481777; 1564344650; 1391731010; 1218693434; 1045284633; 871557427; 
   697564737; 523359562; 348994967; 174524064; 0; (-174524064); (-348994967); 
   (-523359562); (-697564737); (-871557427); (-1045284633); (-1218693434); (-1391731010); 
   (-1564344650); (-1736481777); (-1908089954); (-2079116908); (-2249510543); 
   (-2419218956); (-2588190451); (-2756373558); (-2923717047); (-3090169944); 
   (-3255681545); (-3420201433); (-3583679495); (-3746065934); (-3907311285); 
   (-4067366431); (-4226182617); (-4383711468); (-4539904997); (-4694715628); 
   (-4848096202); (-5000000000); (-5150380749); (-5299192642); (-5446390350); 
   (-5591929035); (-5735764364); (-5877852523); (-6018150232); (-6156614753); 
   (-6293203910); (-6427876097); (-6560590290); (-6691306064); (-6819983601); 
   (-6946583705); (-7071067812); (-7193398003); (-7313537016); (-7431448255); 
   (-7547095802); (-7660444431); (-7771459615); (-7880107536); (-7986355100); 
   (-8090169944); (-8191520443); (-8290375726); (-8386705679); (-8480480962); 
   (-8571673007); (-8660254038); (-8746197071); (-8829475929); (-8910065242); 
   (-8987940463); (-9063077870); (-9135454576); (-9205048535); (-9271838546); 
   (-9335804265); (-9396926208); (-9455185756); (-9510565163); (-9563047560); 
   (-9612616959); (-9659258263); (-9702957263); (-9743700648); (-9781476007); 
   (-9816271834); (-9848077530); (-9876883406); (-9902680687); (-9925461516); 
   (-9945218954); (-9961946981); (-9975640503); (-9986295348); (-9993908270); 
   (-9998476952); (-10000000000); (-9998476952); (-9993908270); (-9986295348); 
   (-9975640503); (-9961946981); (-9945218954); (-9925461516); (-9902680687); 
   (-9876883406); (-9848077530); (-9816271834); (-9781476007); (-9743700648); 
   (-9702957263); (-9659258263); (-9612616959); (-9563047560); (-9510565163); 
   (-9455185756); (-9396926208); (-9335804265); (-9271838546); (-9205048535); 
   (-9135454576); (-9063077870); (-8987940463); (-8910065242); (-8829475929); 
   (-8746197071); (-8660254038); (-8571673007); (-8480480962); (-8386705679); 
   (-8290375726); (-8191520443); (-8090169944); (-7986355100); (-7880107536); 
   (-7771459615); (-7660444431); (-7547095802); (-7431448255); (-7313537016); 
   (-7193398003); (-7071067812); (-6946583705); (-6819983601); (-6691306064); 
   (-6560590290); (-6427876097); (-6293203910); (-6156614753); (-6018150232); 
   (-5877852523); (-5735764364); (-5591929035); (-5446390350); (-5299192642); 
   (-5150380749); (-5000000000); (-4848096202); (-4694715628); (-4539904997); 
   (-4383711468); (-4226182617); (-4067366431); (-3907311285); (-3746065934); 
   (-3583679495); (-3420201433); (-3255681545); (-3090169944); (-2923717047); 
   (-2756373558); (-2588190451); (-2419218956); (-2249510543); (-2079116908); 
   (-1908089954); (-1736481777); (-1564344650); (-1391731010); (-1218693434); 
   (-1045284633); (-871557427); (-697564737); (-523359562); (-348994967); (-174524064)].
(** geometry.cpp:9-371 *)
Definition cos_table : list Z :=
  [10000000000; 9998476952; 9993908270; 9986295348; 9975640503; 9961946981; 9945218954; 
   9925461516; 9902680687; 9876883406; 9848077530; 9816271834; 9781476007; 9743700648; 
   9702957263; 9659258263; 9612616959; 9563047560; 9510565163; 9455185756; 9396926208; 
   9335804265; 9271838546; 9205048535; 9135454576; 9063077870; 8987940463; 8910065242; 
   8829475929; 8746197071; 8660254038; 8571673007; 8480480962; 8386705679; 8290375726; 
   8191520443; 8090169944; 7986355100; 7880107536; 7771459615; 7660444431; 7547095802; 
   7431448255; 7313537016; 7193398003; 7071067812; 6946583705; 6819983601; 6691306064; 
   6560590290; 6427876097; 6293203910; 6156614753; 6018150232; 5877852523; 5735764364; 
   5591929035; 5446390350; 5299192642; 5150380749; 5000000000; 4848096202; 4694715628; 
   4539904997; 4383711468; 4226182617; 4067366431; 3907311285; 3746065934; 3583679495; 
   3420201433; 3255681545; 3090169944; 2923717047; 2756373558; 2588190451; 2419218956; 
   2249510543; 2079116908; 1908089954; 1736481777; 1564344650; 1391731010; 1218693434; 
   1045284633; 871557427; 697564737; 523359562; 348994967; 174524064; 0; (-174524064); 
   (-348994967); (-523359562); (-697564737); (-871557427); (-1045284633); (-1218693434); 
   (-1391731010); (-1564344650); (-1736481777); (-1908089954); (-2079116908); 
   (-2249510543); (-2419218956); (-2588190451); (-2756373558); (-2923717047); 
   (-3090169944); (-3255681545); (-3420201433); (-3583679495); (-3746065934); 
   (-3907311285); (-4067366431); (-4226182617); (-4383711468); (-4539904997); 
   (-4694715628); (-4848096202); (-5000000000); (-5150380749); (-5299192642); 
   (-5446390350); (-5591929035); (-5735764364); (-5877852523); (-6018150232); 
   (-6156614753); (-6293203910); (-6427876097); (-6560590290); (-6691306064); 
   (-6819983601); (-6946583705); (-7071067812); (-7193398003); (-7313537016); 
   (-7431448255); (-7547095802); (-7660444431); (-7771459615); (-7880107536); 
   (-7986355100); (-8090169944); (-8191520443); (-8290375726); (-8386705679); 
   (-8480480962); (-8571673007); (-8660254038); (-8746197071); (-8829475929); 
   (-8910065242); (-8987940463); (-9063077870); (-9135454576); (-9205048535); 
   (-9271838546); (-9335804265); (-9396926208); (-9455185756); (-9510565163); 
   (-9563047560); (-9612616959); (-9659258263); (-9702957263); (-9743700648); 
   (-9781476007); (-9816271834); (-9848077530); (-9876883406); (-9902680687); 
   (-9925461516); (-9945218954); (-9961946981); (-9975640503); (-9986295348); 
   (-9993908270); (-9998476952); (-10000000000); (-9998476952); (-9993908270); 
   (-9986295348); (-9975640503); (-9961946981); (-9945218954); (-9925461516); 
   (-9902680687); (-9876883406); (-9848077530); (-9816271834); (-9781476007); 
   (-9743700648); (-9702957263); (-9659258263); (-9612616959); (-9563047560); 
   (-9510565163); (-9455185756); (-9396926208); (-9335804265); (-9271838546); 
   (-9205048535); (-9135454576); (-9063077870); (-8987940463); (-8910065242); 
   (-8829475929); (-8746197071); (-8660254038); (-8571673007); (-8480480962); 
   (-8386705679); (-8290375726); (-8191520443); (-8090169944); (-7986355100); 
   (-7880107536); (-7771459615); (-7660444431); (-7547095802); (-7431448255); 
   (-7313537016); (-7193398003); (-7071067812); (-6946583705); (-6819983601); 
   (-6691306064); (-6560590290); (-6427876097); (-6293203910); (-6156614753); 
   (-6018150232); (-5877852523); (-5735764364); (-5591929035); (-5446390350); 
   (-5299192642); (-5150380749); (-5000000000); (-4848096202); (-4694715628); 
   (-4539904997); (-4383711468); (-4226182617); (-4067366431); (-3907311285); 
   (-3746065934); (-3583679495); (-3420201433); (-3255681545); (-3090169944); 
   (-2923717047); (-2756373558); (-2588190451); (-2419218956); (-2249510543); 
   (-2079116908); (-1908089954); (-1736481777); (-1564344650); (-1391731010); 
   (-1218693434); (-1045284633); (-871557427); (-697564737); (-523359562); (-348994967); 
   (-174524064); 0; 174524064; 348994967; 523359562; 697564737; 871557427; 1045284633; 
   1218693434; 1391731010; 1564344650; 1736481777; 1908089954; 2079116908; 2249510543; 
   2419218956; 2588190451; 2756373558; 2923717047; 3090169944; 3255681545; 3420201433; 
   3583679495; 3746065934; 3907311285; 4067366431; 4226182617; 4383711468; 4539904997; 
   4694715628; 4848096202; 5000000000; 5150380749; 5299192642; 5446390350; 5591929035; 
   5735764364; 5877852523; 6018150232; 6156614753; 6293203910; 6427876097; 6560590290; 
   6691306064; 6819983601; 6946583705; 7071067812; 7193398003; 7313537016; 7431448255; 
   7547095802; 7660444431; 7771459615; 7880107536; 7986355100; 8090169944; 8191520443; 
   8290375726; 8386705679; 8480480962; 8571673007; 8660254038; 8746197071; 8829475929; 
   8910065242; 8987940463; 9063077870; 9135454576; 9205048535; 9271838546; 9335804265; 
   9396926208; 9455185756; 9510565163; 9563047560; 9612616959; 9659258263; 9702957263; 
   9743700648; 9781476007; 9816271834; 9848077530; 9876883406; 9902680687; 9925461516; 
   9945218954; 9961946981; 9975640503; 9986295348; 9993908270; 9998476952].
(** geometry.cpp:9-371 *)
Definition tan_table : list (option Z) :=
  [Some 0; Some 17455065; Some 34920769; Some 52407779; Some 69926812; Some 87488664; 
   Some 105104235; Some 122784561; Some 140540835; Some 158384440; Some 176326981; 
   Some 194380309; Some 212556562; Some 230868191; Some 249328003; Some 267949192; 
   Some 286745386; Some 305730681; Some 324919696; Some 344327613; Some 363970234; 
   Some 383864035; Some 404026226; Some 424474816; Some 445228685; Some 466307658; 
   Some 487732589; Some 509525449; Some 531709432; Some 554309051; Some 577350269; 
   Some 600860619; Some 624869352; Some 649407593; Some 674508517; Some 700207538; 
   Some 726542528; Some 753554050; Some 781285627; Some 809784033; Some 839099631; 
   Some 869286738; Some 900404044; Some 932515086; Some 965688775; Some 1000000000; 
   Some 1035530314; Some 1072368710; Some 1110612515; Some 1150368407; Some 1191753593; 
   Some 1234897157; Some 1279941632; Some 1327044822; Some 1376381920; Some 1428148007; 
   Some 1482560969; Some 1539864964; Some 1600334529; Some 1664279482; Some 1732050808; 
   Some 1804047755; Some 1880726465; Some 1962610506; Some 2050303842; Some 2144506921; 
   Some 2246036774; Some 2355852366; Some 2475086853; Some 2605089065; Some 2747477419; 
   Some 2904210878; Some 3077683537; Some 3270852618; Some 3487414444; Some 3732050808; 
   Some 4010780934; Some 4331475874; Some 4704630109; Some 5144554016; Some 5671281820; 
   Some 6313751515; Some 7115369722; Some 8144346428; Some 9514364454; Some 11430052300; 
   Some 14300666260; Some 19081136690; Some 28636253280; Some 57289961630; None; 
   Some (-57289961630); Some (-28636253280); Some (-19081136690); Some (-14300666260); 
   Some (-11430052300); Some (-9514364454); Some (-8144346428); Some (-7115369722); 
   Some (-6313751515); Some (-5671281820); Some (-5144554016); Some (-4704630109); 
   Some (-4331475874); Some (-4010780934); Some (-3732050808); Some (-3487414444); 
   Some (-3270852618); Some (-3077683537); Some (-2904210878); Some (-2747477419); 
   Some (-2605089065); Some (-2475086853); Some (-2355852366); Some (-2246036774); 
   Some (-2144506921); Some (-2050303842); Some (-1962610506); Some (-1880726465); 
   Some (-1804047755); Some (-1732050808); Some (-1664279482); Some (-1600334529); 
   Some (-1539864964); Some (-1482560969); Some (-1428148007); Some (-1376381920); 
   Some (-1327044822); Some (-1279941632); Some (-1234897157); Some (-1191753593); 
   Some (-1150368407); Some (-1110612515); Some (-1072368710); Some (-1035530314); 
   Some (-1000000000); Some (-965688775); Some (-932515086); Some (-900404044); 
   Some (-869286738); Some (-839099631); Some (-809784033); Some (-781285627); 
   Some (-753554050); Some (-726542528); Some (-700207538); Some (-674508517); 
   Some (-649407593); Some (-624869352); Some (-600860619); Some (-577350269); 
   Some (-554309051); Some (-531709432); Some (-509525449); Some (-487732589); 
   Some (-466307658); Some (-445228685); Some (-424474816); Some (-404026226); 
   Some (-383864035); Some (-363970234); Some (-344327613); Some (-324919696); 
   Some (-305730681); Some (-286745386); Some (-267949192); Some (-249328003); 
   Some (-230868191); Some (-212556562); Some (-194380309); Some (-176326981); 
   Some (-158384440); Some (-140540835); Some (-122784561); Some (-105104235); 
   Some (-87488664); Some (-69926812); Some (-52407779); Some (-34920769); 
   Some (-17455065); Some 0; Some 17455065; Some 34920769; Some 52407779; Some 69926812; 
   Some 87488664; Some 105104235; Some 122784561; Some 140540835; Some 158384440; 
   Some 176326981; Some 194380309; Some 212556562; Some 230868191; Some 249328003; 
   Some 267949192; Some 286745386; Some 305730681; Some 324919696; Some 344327613; 
   Some 363970234; Some 383864035; Some 404026226; Some 424474816; Some 445228685; 
   Some 466307658; Some 487732589; Some 509525449; Some 531709432; Some 554309051; 
   Some 577350269; Some 600860619; Some 624869352; Some 649407593; Some 674508517; 
   Some 700207538; Some 726542528; Some 753554050; Some 781285627; Some 809784033; 
   Some 839099631; Some 869286738; Some 900404044; Some 932515086; Some 965688775; 
   Some 1000000000; Some 1035530314; Some 1072368710; Some 1110612515; Some 1150368407; 
   Some 1191753593; Some 1234897157; Some 1279941632; Some 1327044822; Some 1376381920; 
   Some 1428148007; Some 1482560969; Some 1539864964; Some 1600334529; Some 1664279482; 
   Some 1732050808; Some 1804047755; Some 1880726465; Some 1962610506; Some 2050303842; 
   Some 2144506921; Some 2246036774; Some 2355852366; Some 2475086853; Some 2605089065; 
   Some 2747477419; Some 2904210878; Some 3077683537; Some 3270852618; Some 3487414444; 
   Some 3732050808; Some 4010780934; Some 4331475874; Some 4704630109; Some 5144554016; 
   Some 5671281820; Some 6313751515; Some 7115369722; Some 8144346428; Some 9514364454; 
   Some 11430052300; Some 14300666260; Some 19081136690; Some 28636253280; 
   Some 57289961630; None; Some (-57289961630); Some (-28636253280); Some (-19081136690); 
   Some (-14300666260); Some (-11430052300); Some (-9514364454); Some (-8144346428); 
   Some (-7115369722); Some (-6313751515); Some (-5671281820); Some (-5144554016); 
   Some (-4704630109); Some (-4331475874); Some (-4010780934); Some (-3732050808); 
   Some (-3487414444); Some (-3270852618); Some (-3077683537); Some (-2904210878); 
   Some (-2747477419); Some (-2605089065); Some (-2475086853); Some (-2355852366); 
   Some (-2246036774); Some (-2144506921); Some (-2050303842); Some (-1962610506); 
   Some (-1880726465); Some (-1804047755); Some (-1732050808); Some (-1664279482); 
   Some (-1600334529); Some (-1539864964); Some (-1482560969); Some (-1428148007); 
   Some (-1376381920); Some (-1327044822); Some (-1279941632); Some (-1234897157); 
   Some (-1191753593); Some (-1150368407); Some (-1110612515); Some (-1072368710); 
   Some (-1035530314); Some (-1000000000); Some (-965688775); Some (-932515086); 
   Some (-900404044); Some (-869286738); Some (-839099631); Some (-809784033); 
   Some (-781285627); Some (-753554050); Some (-726542528); Some (-700207538); 
   Some (-674508517); Some (-649407593); Some (-624869352); Some (-600860619); 
   Some (-577350269); Some (-554309051); Some (-531709432); Some (-509525449); 
   Some (-487732589); Some (-466307658); Some (-445228685); Some (-424474816); 
   Some (-404026226); Some (-383864035); Some (-363970234); Some (-344327613); 
   Some (-324919696); Some (-305730681); Some (-286745386); Some (-267949192); 
   Some (-249328003); Some (-230868191); Some (-212556562); Some (-194380309); 
   Some (-176326981); Some (-158384440); Some (-140540835); Some (-122784561); 
   Some (-105104235); Some (-87488664); Some (-69926812); Some (-52407779); 
   Some (-34920769); Some (-17455065)].

(** [do_trig_degrees].
    poseidon/src/geometry.cpp:403-409 *)
Definition trig_index (t : Z) : nat := Z.to_nat ((t mod 4294967296 + 2147483160) mod 4294967296 mod 360).

(** [degrees::sin], [cos] and [tan], unless the compiler evaluates them.
    poseidon/geometry.hpp:64-95 *)
Definition sin (t : Z) : Z := nth (trig_index t) sin_table 0.
(** geometry.hpp:64-95 *)
Definition cos (t : Z) : Z := nth (trig_index t) cos_table 0.
(** geometry.hpp:64-95 *)
Definition tan (t : Z) : option Z := nth (trig_index t) tan_table None.

(** *** Arctangents *)

(** A float. All finite ones are multiples of the least positive one, so they
    are integers here. There is only one zero. geometry.cpp:411-484 *)
Inductive num := NaN | Plus_inf | Minus_inf | Fin (n : Z).

(** geometry.cpp:430-484 *)
Definition neg (x : num) : num :=
  match x with NaN => NaN | Plus_inf => Minus_inf | Minus_inf => Plus_inf | Fin n => Fin (- n) end.

(** Comparisons of floats. geometry.cpp:411-430 *)
Definition eq (x y : num) : bool :=
  match x, y with
  | Plus_inf, Plus_inf | Minus_inf, Minus_inf => true
  | Fin a, Fin b => a =? b
  | _, _ => false
  end.

(** geometry.cpp:411-430 *)
Definition gt (x y : num) : bool :=
  match x, y with
  | NaN, _ | _, NaN => false
  | Plus_inf, Plus_inf => false
  | Plus_inf, _ => true
  | Fin a, Minus_inf => true
  | Fin a, Fin b => b <? a
  | _, _ => false
  end.

Section arctangents.
(** The number 1. *)
Variable one : Z.
(** Division of finite numbers whose quotient is not greater than one, with
    its rounding. *)
Variable quotient : Z -> Z -> Z.
(** The rounding of differences. *)
Variable fl : Z -> Z.
(** The tangent of an angle between 0 and 45 degrees. *)
Variable tangent : Z -> Z.

(** Division. The dividends below are not greater than the divisors; other
    cases do not occur and yield [NaN]. geometry.cpp:430-484 *)
Definition div (x y : num) : num :=
  match x, y with
  | Fin a, Fin b => if b =? 0 then NaN else Fin (Z.sgn a * Z.sgn b * quotient (Z.abs a) (Z.abs b))
  | Fin _, (Plus_inf | Minus_inf) => Fin 0
  | _, _ => NaN
  end.

(** geometry.cpp:381-390 *)
Definition less (x : num) (y : Z) : bool := match x with Fin a => a <? y | _ => false end.

(** The binary search.
    poseidon/src/geometry.cpp:381-390 *)
Fixpoint search (fuel : nat) (slope : num) (lower theta : Z) : Z :=
  match fuel with
  | O => theta
  | S fuel =>
    if lower =? theta then theta
    else
      let mid := (lower + theta) / 2 in
      if less slope (tangent mid) then search fuel slope lower mid
      else search fuel slope (mid + 1) theta
  end.

(** [do_reduced_arctan]. The assertions are not there in release builds.
    poseidon/src/geometry.cpp:373-399 *)
Definition reduced_arctan (slope : num) : Z :=
  let theta := search 45 slope 1 45 in
  let lower := theta - 1 in
  match slope with
  | Fin s => if fl (tangent theta - s) <? fl (s - tangent lower) then theta else lower
  | _ => lower
  end.

(** [do_arctan_degrees]. The elements of the vectors are compared from the
    last one on; [None] is [ASTERIA_UNREACHABLE].
    poseidon/src/geometry.cpp:411-484 *)
Definition bit (b : bool) : Z := if b then 1 else 0.
(** geometry.cpp:411-484 *)
Definition arctan (y x : num) : option Z :=
  let zero := Fin 0 in
  let ps1 := bit (eq x x) * 8 + bit (eq x zero) * 4 + bit (eq y y) * 2 + bit (eq y zero) in
  let ps2 := bit (gt x zero) * 8 + bit (gt x (neg y)) * 4 + bit (gt y zero) * 2 + bit (gt y x) in
  match ps1 * 16 + ps2 with
  | 0 | 240 => Some 0
  | 136 | 188 | 192 => Some 0
  | 174 => Some (reduced_arctan (div y x))
  | 175 => Some (90 - reduced_arctan (div x y))
  | 34 | 48 | 231 => Some 90
  | 167 => Some (90 + reduced_arctan (div x (neg y)))
  | 163 => Some (180 - reduced_arctan (div (neg y) x))
  | 128 | 177 => Some 180
  | 161 => Some (180 + reduced_arctan (div y x))
  | 160 => Some (270 - reduced_arctan (div x y))
  | 32 | 224 => Some 270
  | 168 => Some (270 + reduced_arctan (div x (neg y)))
  | 172 => Some (360 - reduced_arctan (div (neg y) x))
  | _ => None
  end.
End arctangents.
