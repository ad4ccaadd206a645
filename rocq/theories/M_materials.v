(** * The dispersion curves shipped with the package (refellips/materials/*.csv) and
    load_material (dispersion.py:133-154).

    Transcribed from the CSV files: each column is a list of integers to be divided by the
    scale (a power of ten) of the column.  Wavelengths in micrometres. *)

Require Import Reals List ZArith String.
From Verif Require Import Base M_disp.
Import ListNotations.
Open Scope Z_scope.

(** air.csv, 101 rows *)
Definition mat_air : list (Z * list Z) :=
  [(10000, [2300; 2446; 2592; 2738; 2884; 3030; 3176; 3322; 3468; 3614; 3760; 3906; 4052; 4198; 4344; 4490;
    4636; 4782; 4928; 5074; 5220; 5366; 5512; 5658; 5804; 5950; 6096; 6242; 6388; 6534; 6680; 6826;
    6972; 7118; 7264; 7410; 7556; 7702; 7848; 7994; 8140; 8286; 8432; 8578; 8724; 8870; 9016; 9162;
    9308; 9454; 9600; 9746; 9892; 10040; 10180; 10330; 10480; 10620; 10770; 10910; 11060; 11210;
    11350; 11500; 11640; 11790; 11940; 12080; 12230; 12370; 12520; 12670; 12810; 12960; 13100;
    13250; 13400; 13540; 13690; 13830; 13980; 14130; 14270; 14420; 14560; 14710; 14860; 15000;
    15150; 15290; 15440; 15590; 15730; 15880; 16020; 16170; 16320; 16460; 16610; 16750; 16900]);
   (1000000000, [1000308003; 1000303036; 1000299110; 1000295938; 1000293329; 1000291152; 1000289313; 1000287743;
    1000286391; 1000285217; 1000284191; 1000283287; 1000282488; 1000281777; 1000281141; 1000280570;
    1000280056; 1000279590; 1000279168; 1000278783; 1000278432; 1000278110; 1000277814; 1000277542;
    1000277291; 1000277059; 1000276844; 1000276644; 1000276458; 1000276285; 1000276123; 1000275972;
    1000275831; 1000275698; 1000275573; 1000275456; 1000275346; 1000275242; 1000275144; 1000275051;
    1000274964; 1000274881; 1000274802; 1000274728; 1000274657; 1000274590; 1000274526; 1000274465;
    1000274407; 1000274352; 1000274299; 1000274249; 1000274200; 1000274154; 1000274111; 1000274068;
    1000274027; 1000273990; 1000273951; 1000273917; 1000273882; 1000273848; 1000273818; 1000273787;
    1000273759; 1000273730; 1000273702; 1000273677; 1000273651; 1000273627; 1000273603; 1000273580;
    1000273559; 1000273537; 1000273518; 1000273497; 1000273478; 1000273460; 1000273442; 1000273425;
    1000273408; 1000273391; 1000273376; 1000273360; 1000273346; 1000273331; 1000273317; 1000273304;
    1000273290; 1000273278; 1000273265; 1000273253; 1000273242; 1000273230; 1000273219; 1000273208;
    1000273197; 1000273188; 1000273177; 1000273168; 1000273158])].

(** aluminium_oxide.csv, 550 rows *)
Definition mat_aluminium_oxide : list (Z * list Z) :=
  [(10000, [2100; 2200; 2300; 2400; 2500; 2600; 2700; 2800; 2900; 3000; 3100; 3200; 3300; 3400; 3500; 3600;
    3700; 3800; 3900; 4000; 4100; 4200; 4300; 4400; 4500; 4600; 4700; 4800; 4900; 5000; 5100; 5200;
    5300; 5400; 5500; 5600; 5700; 5800; 5900; 6000; 6100; 6200; 6300; 6400; 6500; 6600; 6700; 6800;
    6900; 7000; 7100; 7200; 7300; 7400; 7500; 7600; 7700; 7800; 7900; 8000; 8101; 8200; 8300; 8400;
    8500; 8600; 8700; 8800; 8900; 9000; 9100; 9200; 9300; 9400; 9500; 9600; 9700; 9800; 9900;
    10000; 10100; 10200; 10300; 10400; 10500; 10600; 10700; 10800; 10900; 11000; 11100; 11200;
    11300; 11400; 11500; 11600; 11700; 11800; 11900; 12000; 12100; 12200; 12300; 12400; 12500;
    12600; 12700; 12800; 12900; 13000; 13100; 13200; 13300; 13400; 13500; 13600; 13700; 13800;
    13900; 14000; 14100; 14200; 14300; 14400; 14500; 14600; 14700; 14800; 14900; 15000; 15100;
    15200; 15300; 15400; 15500; 15600; 15700; 15800; 15900; 16000; 16100; 16200; 16300; 16400;
    16500; 16600; 16700; 16800; 16900; 17000; 17100; 17200; 17300; 17400; 17500; 17600; 17700;
    17800; 17900; 18000; 18100; 18200; 18300; 18400; 18500; 18600; 18700; 18800; 18900; 19000;
    19100; 19200; 19300; 19400; 19500; 19600; 19700; 19800; 19900; 20000; 20100; 20200; 20300;
    20400; 20500; 20600; 20700; 20800; 20900; 21000; 21100; 21200; 21300; 21400; 21500; 21600;
    21700; 21800; 21900; 22000; 22100; 22200; 22300; 22400; 22500; 22600; 22700; 22800; 22900;
    23000; 23100; 23200; 23300; 23400; 23500; 23600; 23700; 23800; 23900; 24000; 24100; 24200;
    24300; 24400; 24500; 24600; 24700; 24800; 24900; 25000; 25063; 25126; 25189; 25253; 25316;
    25381; 25445; 25510; 25575; 25641; 25707; 25773; 25840; 25907; 25974; 26042; 26110; 26178;
    26247; 26316; 26385; 26455; 26525; 26596; 26667; 26738; 26810; 26882; 26954; 27027; 27100;
    27174; 27248; 27322; 27397; 27473; 27548; 27624; 27701; 27778; 27855; 27933; 28011; 28090;
    28169; 28249; 28329; 28409; 28490; 28571; 28653; 28736; 28818; 28902; 28986; 29070; 29155;
    29240; 29326; 29412; 29499; 29499; 29674; 29762; 29851; 29940; 30030; 30120; 30211; 30303;
    30395; 30488; 30581; 30675; 30769; 30864; 30960; 31056; 31153; 31250; 31348; 31447; 31546;
    31646; 31746; 31847; 31949; 32051; 32154; 32258; 32362; 32468; 32573; 32680; 32787; 32895;
    33003; 33113; 33223; 33333; 33445; 33557; 33670; 33784; 33898; 34014; 34130; 34247; 34364;
    34483; 34602; 34722; 34843; 34965; 35088; 35211; 35336; 35461; 35587; 35714; 35842; 35971;
    36101; 36232; 36364; 36496; 36630; 36765; 36900; 37037; 37175; 37453; 37594; 37594; 37736;
    37879; 38023; 38168; 38314; 38462; 38610; 38760; 38911; 39063; 39216; 39370; 39526; 39683;
    39841; 40000; 40161; 40323; 40486; 40650; 40816; 40984; 41152; 41322; 41494; 41667; 41841;
    42017; 42194; 42373; 42553; 42735; 42918; 43103; 43290; 43478; 43668; 43860; 44053; 44248;
    44444; 44643; 44843; 45045; 45249; 45455; 45662; 45872; 46083; 46296; 46512; 46729; 46948;
    47170; 47393; 47619; 47847; 48077; 48309; 48544; 48780; 49020; 49261; 49505; 49751; 50000;
    50251; 50505; 50761; 51020; 51282; 51546; 51813; 52083; 52356; 52632; 52910; 53191; 53476;
    53763; 54054; 54348; 54645; 54945; 55249; 55556; 55866; 56180; 56497; 56818; 57143; 57471;
    57803; 58140; 58480; 58824; 59172; 59524; 59880; 60241; 60606; 60976; 61350; 61728; 62112;
    62500; 62893; 63291; 63694; 64103; 64516; 64935; 65359; 65789; 66225; 66667; 67114; 67568;
    68027; 68493; 68966; 69444; 69930; 70423; 70922; 71429; 71942; 72464; 72993; 73529; 74074;
    74627; 75188; 75758; 76336; 76923; 77519; 78125; 78740; 79365; 80000; 80645; 81301; 81967;
    82645; 83333; 84034; 84746; 85470; 86207; 86957; 87719; 88496; 89286; 90090; 90909; 91743;
    92593; 93458; 94340; 95238; 96154; 97087; 98039; 99010; 100000; 101010; 102041; 103093; 104167;
    105263; 106383; 107527; 108696; 109890; 111111; 112360; 113636; 114943; 116279; 117647; 119048;
    120482; 121951; 123457; 125000]);
   (1000, [240; 223; 217; 215; 217; 223; 231; 242; 252; 263; 276; 287; 301; 312; 329; 343; 359; 378; 400;
    420; 442; 463; 485; 508; 531; 557; 584; 612; 639; 668; 698; 729; 762; 796; 830; 864; 899; 936;
    977; 1019; 1062; 1106; 1153; 1203; 1258; 1314; 1370; 1427; 1488; 1551; 1618; 1687; 1759; 1833;
    1910; 1990; 2068; 2139; 2198; 2239; 2262; 2262; 2234; 2180; 2104; 2014; 1918; 1820; 1727; 1640;
    1560; 1489; 1427; 1373; 1326; 1285; 1250; 1220; 1194; 1171; 1151; 1132; 1117; 1103; 1093; 1085;
    1077; 1072; 1069; 1068; 1068; 1070; 1072; 1075; 1080; 1083; 1085; 1087; 1088; 1091; 1091; 1098;
    1105; 1114; 1122; 1130; 1139; 1150; 1164; 1178; 1193; 1206; 1219; 1231; 1244; 1255; 1265; 1278;
    1291; 1303; 1320; 1334; 1348; 1363; 1375; 1391; 1408; 1425; 1442; 1464; 1483; 1504; 1520; 1533;
    1550; 1565; 1588; 1616; 1638; 1660; 1683; 1705; 1727; 1750; 1773; 1795; 1818; 1841; 1864; 1887;
    1910; 1934; 1957; 1981; 2004; 2028; 2052; 2076; 2100; 2124; 2148; 2172; 2193; 2218; 2243; 2268;
    2293; 2318; 2343; 2368; 2394; 2419; 2445; 2471; 2496; 2522; 2548; 2575; 2601; 2627; 2654; 2680;
    2707; 2734; 2761; 2788; 2815; 2842; 2869; 2897; 2924; 2952; 2980; 3008; 3036; 3064; 3092; 3120;
    3148; 3177; 3205; 3234; 3263; 3292; 3320; 3349; 3378; 3406; 3431; 3461; 3491; 3521; 3551; 3581;
    3611; 3641; 3671; 3702; 3732; 3762; 3793; 3824; 3854; 3885; 3916; 3947; 3978; 4009; 4040; 4063;
    4084; 4105; 4125; 4145; 4165; 4186; 4207; 4227; 4248; 4269; 4290; 4312; 4333; 4355; 4376; 4398;
    4420; 4442; 4464; 4486; 4508; 4530; 4545; 4569; 4593; 4616; 4640; 4663; 4686; 4702; 4728; 4752;
    4776; 4793; 4819; 4844; 4869; 4887; 4914; 4940; 4965; 4984; 5011; 5038; 5057; 5086; 5114; 5141;
    5161; 5191; 5220; 5248; 5269; 5300; 5330; 5360; 5390; 5420; 5442; 5475; 5539; 5507; 5571; 5603;
    5636; 5669; 5702; 5735; 5768; 5802; 5836; 5871; 5905; 5940; 5976; 6011; 6048; 6085; 6132; 6166;
    6202; 6238; 6276; 6313; 6351; 6389; 6427; 6466; 6505; 6545; 6585; 6625; 6665; 6706; 6747; 6789;
    6831; 6873; 6916; 6959; 7003; 7046; 7091; 7135; 7180; 7225; 7271; 7317; 7364; 7410; 7457; 7504;
    7550; 7587; 7639; 7690; 7741; 7792; 7844; 7896; 7948; 8001; 8054; 8108; 8162; 8217; 8272; 8328;
    8384; 8441; 8498; 8614; 8673; 8556; 8732; 8792; 8852; 8913; 8975; 9037; 9099; 9162; 9226; 9290;
    9354; 9418; 9480; 9533; 9603; 9672; 9741; 9810; 9879; 9946; 10002; 10077; 10149; 10219; 10277;
    10332; 10414; 10494; 10569; 10631; 10711; 10777; 10862; 10942; 11008; 11093; 11162; 11250;
    11322; 11415; 11501; 11572; 11652; 11750; 11842; 11921; 12018; 12100; 12201; 12287; 12394;
    12496; 12584; 12695; 12801; 12893; 13009; 13122; 13232; 13329; 13452; 13571; 13687; 13790;
    13920; 14048; 14176; 14305; 14436; 14568; 14701; 14836; 14972; 15110; 15250; 15392; 15535;
    15681; 15831; 15986; 16158; 16302; 16453; 16606; 16763; 16924; 17091; 17276; 17431; 17593;
    17758; 17926; 18097; 18269; 18444; 18622; 18801; 18982; 19166; 19351; 19539; 19728; 19917;
    20102; 20273; 20483; 20687; 20885; 21069; 21292; 21508; 21716; 21911; 22145; 22365; 22571;
    22816; 23047; 23262; 23518; 23758; 23982; 24240; 24474; 24743; 24988; 25267; 25524; 25824;
    26105; 26372; 26684; 26979; 27259; 27586; 27894; 28189; 28531; 28855; 29165; 29524; 29864;
    30192; 30572; 30941; 31297; 31643; 32044; 32432; 32807; 33171; 33578; 33963; 34402; 34814;
    35216; 35672; 36100; 36516; 36975; 37410; 37885; 38335; 38825; 39289; 39791; 40253; 40762;
    41294; 41779; 42300; 42856; 43429; 43951; 44505; 45078; 45665; 46265; 46879; 47505; 48140;
    48767; 49415; 50148; 50874; 51611]);
   (1000, [1976; 2084; 2199; 2315; 2433; 2549; 2665; 2778; 2891; 3003; 3114; 3224; 3336; 3445; 3557; 3667;
    3779; 3891; 4001; 4108; 4216; 4322; 4429; 4536; 4643; 4750; 4856; 4960; 5064; 5168; 5272; 5375;
    5476; 5577; 5676; 5776; 5876; 5976; 6075; 6173; 6268; 6363; 6457; 6551; 6641; 6726; 6808; 6889;
    6966; 7041; 7111; 7174; 7232; 7282; 7324; 7352; 7365; 7359; 7339; 7306; 7264; 7214; 7166; 7127;
    7107; 7107; 7131; 7175; 7238; 7316; 7405; 7502; 7607; 7715; 7826; 7939; 8051; 8165; 8277; 8389;
    8500; 8614; 8726; 8839; 8951; 9063; 9174; 9294; 9395; 9505; 9614; 9722; 9828; 9933; 10037;
    10141; 10243; 10346; 10449; 10553; 10661; 10769; 10876; 10982; 11086; 11191; 11297; 11403;
    11508; 11611; 11712; 11812; 11911; 12010; 12110; 12209; 12310; 12410; 12513; 12615; 12716;
    12815; 12915; 13015; 13117; 13218; 13320; 13423; 13523; 13624; 13723; 13820; 13916; 14013;
    14116; 14217; 14323; 14421; 14518; 14616; 14712; 14809; 14905; 15002; 15097; 15193; 15288;
    15383; 15478; 15573; 15668; 15762; 15856; 15950; 16044; 16137; 16231; 16324; 16417; 16510;
    16602; 16693; 16788; 16881; 16974; 17067; 17159; 17252; 17344; 17436; 17528; 17619; 17711;
    17802; 17894; 17985; 18076; 18167; 18258; 18349; 18439; 18530; 18620; 18710; 18800; 18890;
    18980; 19070; 19160; 19249; 19339; 19428; 19517; 19607; 19696; 19784; 19873; 19962; 20050;
    20139; 20227; 20315; 20403; 20491; 20578; 20665; 20752; 20835; 20929; 21018; 21106; 21193;
    21281; 21368; 21455; 21543; 21629; 21716; 21803; 21889; 21975; 22062; 22148; 22233; 22319;
    22404; 22490; 22574; 22658; 22742; 22799; 22854; 22909; 22963; 23018; 23073; 23128; 23183;
    23230; 23294; 23350; 23406; 23462; 23518; 23575; 23631; 23688; 23745; 23802; 23859; 23916;
    23971; 24032; 24093; 24153; 24213; 24272; 24331; 24388; 24451; 24514; 24575; 24634; 24699;
    24763; 24826; 24886; 24933; 25019; 25083; 25144; 25212; 25280; 25343; 25413; 25483; 25550;
    25614; 25686; 25757; 25826; 25892; 25965; 26039; 26110; 26181; 26251; 26320; 26395; 26471;
    26619; 26546; 26693; 26767; 26842; 26916; 26991; 27066; 27142; 27218; 27294; 27371; 27448;
    27525; 27603; 27682; 27762; 27844; 27919; 27994; 28071; 28150; 28230; 28310; 28390; 28471;
    28552; 28634; 28716; 28799; 28882; 28966; 29050; 29134; 29219; 29304; 29390; 29476; 29562;
    29649; 29737; 29824; 29913; 30001; 30091; 30180; 30270; 30360; 30451; 30542; 30633; 30723;
    30812; 30912; 31011; 31108; 31204; 31301; 31398; 31495; 31593; 31691; 31790; 31889; 31989;
    32089; 32190; 32291; 32393; 32495; 32597; 32804; 32908; 32700; 33013; 33118; 33223; 33330;
    33436; 33543; 33650; 33758; 33866; 33975; 34083; 34191; 34296; 34415; 34533; 34647; 34761;
    34874; 34987; 35096; 35220; 35341; 35457; 35569; 35695; 35814; 35945; 36072; 36190; 36322;
    36447; 36584; 36715; 36838; 36975; 37104; 37246; 37378; 37524; 37663; 37792; 37933; 38089;
    38235; 38370; 38522; 38664; 38821; 38967; 39128; 39282; 39427; 39590; 39747; 39895; 40063;
    40225; 40381; 40532; 40704; 40871; 41032; 41188; 41367; 41540; 41708; 41877; 42045; 42214;
    42384; 42555; 42726; 42898; 43072; 43246; 43421; 43598; 43777; 43958; 44145; 44306; 44476;
    44654; 44833; 45015; 45200; 45393; 45556; 45730; 45911; 46095; 46280; 46466; 46654; 46842;
    47032; 47222; 47413; 47605; 47798; 47990; 48183; 48375; 48561; 48783; 48991; 49192; 49385;
    49615; 49829; 50034; 50232; 50468; 50685; 50889; 51131; 51354; 51561; 51809; 52036; 52247;
    52498; 52721; 52979; 53206; 53470; 53703; 53974; 54219; 54446; 54721; 54968; 55199; 55478;
    55729; 55963; 56248; 56502; 56739; 57030; 57287; 57528; 57825; 58088; 58339; 58579; 58879;
    59142; 59393; 59633; 59933; 60186; 60496; 60761; 61007; 61317; 61581; 61825; 62135; 62388;
    62703; 62957; 63273; 63527; 63844; 64095; 64404; 64734; 64987; 65298; 65622; 65959; 66211;
    66525; 66849; 67176; 67506; 67838; 68170; 68502; 68834; 69158; 69585; 69937; 70282; 70623])].

(** dmso.csv, 101 rows *)
Definition mat_dmso : list (Z * list Z) :=
  [(10000, [2369; 2409; 2449; 2490; 2530; 2571; 2611; 2651; 2692; 2732; 2773; 2813; 2853; 2894; 2934; 2974;
    3015; 3055; 3096; 3136; 3176; 3217; 3257; 3298; 3338; 3378; 3419; 3459; 3499; 3540; 3580; 3621;
    3661; 3701; 3742; 3782; 3822; 3863; 3903; 3944; 3984; 4024; 4065; 4105; 4146; 4186; 4226; 4267;
    4307; 4347; 4388; 4428; 4469; 4509; 4549; 4590; 4630; 4671; 4711; 4751; 4792; 4832; 4872; 4913;
    4953; 4994; 5034; 5074; 5115; 5155; 5196; 5236; 5276; 5317; 5357; 5397; 5438; 5478; 5519; 5559;
    5599; 5640; 5680; 5720; 5761; 5801; 5842; 5882; 5922; 5963; 6003; 6044; 6084; 6124; 6165; 6205;
    6245; 6286; 6326; 6367; 6407]);
   (10000000000000, [16276996475098; 16131214131242; 16016052774790; 15919217863878; 15839411371851; 15768753697025;
    15708204802409; 15654235229922; 15604475662558; 15560434235227; 15519185757885; 15482197437315;
    15447994867452; 15415469133364; 15385918919666; 15358287219694; 15331749038989; 15307427248286;
    15283953493362; 15262345345759; 15241904445734; 15222063838049; 15203705087218; 15185831099699;
    15169245440741; 15153441103661; 15137995985313; 15123613643179; 15109864225458; 15096385765824;
    15083798206611; 15071436679702; 15059872695319; 15048770024316; 15037841194530; 15027594675081;
    15017736251216; 15008012474120; 14998878046072; 14989857384036; 14981373524391; 14973186878398;
    14965088838647; 14957460576751; 14949907272894; 14942785219996; 14935895864759; 14929064776636;
    14922615086246; 14916368141466; 14910166252971; 14904303499214; 14898478495355; 14892967847701;
    14887620311110; 14882301445242; 14877264310829; 14872250785649; 14867499681402; 14862881594237;
    14858280785970; 14853916755676; 14849671117990; 14845437633410; 14841418561832; 14837408763493;
    14833599977000; 14829889489707; 14826184652899; 14822662832718; 14819144623365; 14815798579343;
    14812534928752; 14809272320824; 14806167221937; 14803136554097; 14800104839859; 14797217606180;
    14794328151523; 14791575253397; 14788885563129; 14786192178069; 14783624561496; 14781114456113;
    14778599465605; 14776200566733; 14773796119422; 14771501835971; 14769256935403; 14767005664130;
    14764856432354; 14762700376992; 14760641364872; 14758625016397; 14756601291366; 14754667736733;
    14752773373278; 14750871206034; 14749052970843; 14747226705488; 14745480514496])].

(** gold.csv, 171 rows *)
Definition mat_gold : list (Z * list Z) :=
  [(100, [30; 31; 32; 33; 34; 35; 36; 37; 38; 39; 40; 41; 42; 43; 44; 45; 46; 47; 48; 49; 50; 51; 52; 53;
    54; 55; 56; 57; 58; 59; 60; 61; 62; 63; 64; 65; 66; 67; 68; 69; 70; 71; 72; 73; 74; 75; 76; 77;
    78; 79; 80; 81; 82; 83; 84; 85; 86; 87; 88; 89; 90; 91; 92; 93; 94; 95; 96; 97; 98; 99; 100;
    101; 102; 103; 104; 105; 106; 107; 108; 109; 110; 111; 112; 113; 114; 115; 116; 117; 118; 119;
    120; 121; 122; 123; 124; 125; 126; 127; 128; 129; 130; 131; 132; 133; 134; 135; 136; 137; 138;
    139; 140; 141; 142; 143; 144; 145; 146; 147; 148; 149; 150; 151; 152; 153; 154; 155; 156; 157;
    158; 159; 160; 161; 162; 163; 164; 165; 166; 167; 168; 169; 170; 171; 172; 173; 174; 175; 176;
    177; 178; 179; 180; 181; 182; 183; 184; 185; 186; 187; 188; 189; 190; 191; 192; 193; 194; 195;
    196; 197; 198; 199; 200]);
   (1000000000, [1640410330; 1676639010; 1713922550; 1737118900; 1736799420; 1704935670; 1661606490; 1636655380;
    1628115070; 1622102420; 1616478310; 1605245380; 1588480290; 1565304790; 1534996790; 1491787320;
    1430958010; 1347112940; 1219552940; 1047899830; 852468020; 679176705; 541457218; 452101673;
    387062915; 338188089; 298954611; 267720512; 242106885; 222521873; 203958032; 188391970;
    174967662; 163039817; 152677982; 143298342; 135219233; 128201302; 123253481; 120314346;
    118674305; 118801128; 118879580; 119515774; 120372640; 120019627; 121158951; 122491692;
    123832761; 124983601; 127002919; 128450175; 130538811; 131897577; 133847421; 135964843;
    138530279; 140236478; 141767176; 144250227; 146676289; 148222864; 152093810; 154297675;
    156751047; 159772506; 162166407; 165024268; 167030355; 167767712; 169528169; 170129275;
    169765367; 193730474; 196999541; 202009953; 204501023; 208802550; 211242681; 214940413;
    220261517; 223181210; 229303383; 233780311; 239464788; 240389676; 244024682; 249327395;
    254271222; 259806251; 263290662; 270863055; 273004824; 276845426; 283884288; 286403846;
    286112495; 291961181; 291073562; 297054840; 307179340; 308878168; 307515343; 315035514;
    323467309; 325275387; 332418839; 332461978; 338398605; 340014998; 348718040; 352931105;
    354147420; 356602367; 364850498; 377191709; 373528687; 370711508; 377860166; 379356656;
    379709104; 388320089; 394088053; 397301312; 404524096; 401785516; 407006578; 411279190;
    419241686; 425788954; 424489839; 430342816; 436778305; 441896168; 440246657; 447422843;
    451920347; 454471869; 453537001; 456886100; 459084760; 461586065; 469429475; 475152015;
    476620506; 485420645; 490647866; 492823876; 501361923; 504507482; 505507959; 510387260;
    513402641; 516656870; 515242627; 526318409; 530203064; 534847981; 537328097; 540558349;
    554528182; 554088334; 561568919; 569601266; 577520898; 588886882; 587100173; 594625184;
    595217796; 599760919; 607773710]);
   (100000000, [195599843; 195498721; 194861056; 192747310; 189861533; 187620795; 189365292; 192546303;
    194785125; 196184458; 197010263; 197051961; 196521345; 195400757; 193678259; 190835917;
    187257882; 183227368; 179151336; 178013899; 183223160; 194873531; 211087109; 226230872;
    240920071; 254904171; 268208200; 280962918; 293272480; 304781224; 316688023; 327818793;
    338702993; 349309926; 360008422; 370301121; 380305792; 390353849; 400549857; 410241831;
    420034173; 429371695; 438558526; 447909845; 456858375; 466080181; 474990128; 483323227;
    492283520; 500868302; 509338899; 517869829; 527251247; 533956445; 542779904; 550610842;
    559980076; 568121574; 576023281; 583478274; 591571200; 599629529; 607425885; 615781653;
    623700205; 631842559; 639577808; 647754420; 655631163; 663673726; 670952799; 678950508;
    685919981; 694150282; 701625013; 709720223; 716547863; 725036137; 733230942; 739539739;
    747786384; 755779308; 762538115; 770889970; 778388828; 786406467; 794565847; 802021673;
    808569216; 815933083; 823460717; 831631258; 839185334; 846584415; 853874170; 862033396;
    870737370; 876348467; 883477743; 891797408; 899511394; 906923106; 914676861; 921484052;
    929197962; 936711868; 945052436; 951832212; 958958623; 966212932; 974258243; 982166924;
    988716053; 995754365; 1004015640; 1011368090; 1018888420; 1027260800; 1032884320; 1040584070;
    1047817160; 1054896480; 1061566230; 1070630690; 1079084560; 1084430750; 1092549620; 1099218460;
    1106294910; 1113202040; 1121775590; 1129895990; 1137027520; 1144360120; 1151657310; 1159447590;
    1166306820; 1174125910; 1180627110; 1188184980; 1195641170; 1201824680; 1209256690; 1215927380;
    1223249030; 1229578790; 1236821260; 1243962980; 1250582630; 1257154920; 1264533620; 1271551230;
    1278462430; 1284886800; 1291625490; 1299052780; 1305386550; 1313041420; 1319566330; 1325443420;
    1338055790; 1344749130; 1351453510; 1358876860; 1366247210; 1372992570; 1380734520; 1389341290;
    1396812060; 1404465930; 1410402800])].

(** pnipam.csv, 676 rows *)
Definition mat_pnipam : list (Z * list Z) :=
  [(1000000, [245581; 247181; 248781; 250381; 251981; 253581; 255182; 256782; 258382; 259982; 261582; 263182;
    264783; 266383; 267983; 269583; 271183; 272783; 274384; 275984; 277584; 279184; 280784; 282384;
    283984; 285584; 287184; 288784; 290384; 291984; 293584; 295184; 296784; 298384; 299984; 301584;
    303184; 304784; 306384; 307984; 309584; 311184; 312783; 314383; 315983; 317583; 319183; 320782;
    322382; 323982; 325581; 327181; 328780; 330380; 331980; 333579; 335179; 336778; 338378; 339977;
    341576; 343176; 344775; 346374; 347974; 349573; 351172; 352771; 354370; 355969; 357568; 359168;
    360767; 362365; 363964; 365563; 367162; 368761; 370360; 371958; 373557; 375156; 376754; 378353;
    379952; 381550; 383148; 384747; 386345; 387944; 389542; 391140; 392738; 394336; 395935; 397533;
    399131; 400729; 402326; 403924; 405522; 407120; 408718; 410315; 411913; 413510; 415108; 416705;
    418303; 419900; 421497; 423095; 424692; 426289; 427886; 429483; 431080; 432677; 434274; 435870;
    437467; 439064; 440660; 442257; 443853; 445450; 447046; 448642; 450238; 451834; 453431; 455027;
    456622; 458218; 459814; 461410; 463006; 464601; 466197; 467792; 469388; 470983; 472578; 474173;
    475768; 477363; 478958; 480553; 482148; 483743; 485337; 486932; 488526; 490121; 491715; 493309;
    494904; 496498; 498092; 499686; 501279; 502873; 504467; 506061; 507654; 509248; 510841; 512434;
    514027; 515620; 517214; 518806; 520399; 521992; 523585; 525177; 526770; 528362; 529954; 531547;
    533139; 534731; 536323; 537915; 539506; 541098; 542690; 544281; 545872; 547464; 549055; 550646;
    552237; 553828; 555419; 557009; 558600; 560190; 561781; 563371; 564961; 566551; 568141; 569731;
    571321; 572910; 574500; 576089; 577679; 579268; 580857; 582446; 584035; 585624; 587212; 588801;
    590389; 591978; 593566; 595154; 596742; 598330; 599918; 601505; 603093; 604681; 606268; 607855;
    609442; 611029; 612616; 614203; 615789; 617376; 618962; 620548; 622135; 623721; 625306; 626892;
    628478; 630063; 631649; 633234; 634819; 636404; 637989; 639574; 641159; 642743; 644327; 645912;
    647496; 649080; 650664; 652247; 653831; 655414; 656998; 658581; 660164; 661747; 663330; 664912;
    666495; 668077; 669660; 671242; 672824; 674405; 675987; 677569; 679150; 680731; 682313; 683893;
    685474; 687055; 688636; 690216; 691796; 693376; 694956; 696536; 698116; 699695; 701275; 702854;
    704433; 706012; 707591; 709170; 710748; 712326; 713905; 715483; 717061; 718638; 720216; 721793;
    723371; 724948; 726525; 728101; 729678; 731255; 732831; 734407; 735983; 737559; 739135; 740710;
    742286; 743861; 745436; 747011; 748585; 750160; 751734; 753308; 754883; 756456; 758030; 759604;
    761177; 762750; 764323; 765896; 767469; 769042; 770614; 772186; 773758; 775330; 776902; 778473;
    780045; 781616; 783187; 784758; 786328; 787899; 789469; 791039; 792609; 794179; 795748; 797318;
    798887; 800456; 802025; 803593; 805162; 806730; 808298; 809866; 811434; 813001; 814569; 816136;
    817703; 819270; 820836; 822403; 823969; 825535; 827101; 828667; 830232; 831798; 833363; 834928;
    836492; 838057; 839621; 841185; 842749; 844313; 845877; 847440; 849003; 850566; 852129; 853691;
    855254; 856816; 858378; 859940; 861501; 863063; 864624; 866185; 867745; 869306; 870866; 872426;
    873986; 875546; 877106; 878665; 880224; 881783; 883341; 884900; 886458; 888016; 889574; 891132;
    892689; 894246; 895803; 897360; 898917; 900473; 902029; 903585; 905141; 906696; 908252; 909807;
    911362; 912916; 914471; 916025; 917579; 919132; 920686; 922239; 923792; 925345; 926898; 928450;
    930002; 931554; 933106; 934658; 936209; 937760; 939311; 940861; 942412; 943962; 945512; 947061;
    948611; 950160; 951709; 953258; 954806; 956354; 957902; 959450; 960998; 962545; 964092; 965639;
    967186; 968732; 970278; 971824; 973370; 974915; 976461; 978005; 979550; 981095; 982639; 984183;
    985727; 987270; 988813; 990356; 991899; 993442; 994984; 996526; 998068; 999609; 1012269;
    1015673; 1019077; 1022481; 1025884; 1029287; 1032690; 1036093; 1039496; 1042899; 1046301;
    1049703; 1053105; 1056507; 1059909; 1063311; 1066713; 1070115; 1073516; 1076917; 1080319;
    1083720; 1087121; 1090523; 1093924; 1097325; 1100726; 1104127; 1107529; 1110930; 1114331;
    1117732; 1121133; 1124534; 1127935; 1131337; 1134738; 1138139; 1141541; 1144943; 1148344;
    1151746; 1155148; 1158550; 1161952; 1165354; 1168756; 1172158; 1175561; 1178964; 1182367;
    1185770; 1189173; 1192576; 1195980; 1199384; 1202788; 1206192; 1209596; 1213001; 1216406;
    1219811; 1223216; 1226622; 1230028; 1233434; 1236840; 1240247; 1243654; 1247062; 1250469;
    1253877; 1257286; 1260694; 1264103; 1267512; 1270922; 1274332; 1277743; 1281154; 1284565;
    1287976; 1291388; 1294801; 1298214; 1301627; 1305040; 1308455; 1311869; 1315284; 1318700;
    1322116; 1325532; 1328949; 1332366; 1335784; 1339203; 1342622; 1346041; 1349461; 1352882;
    1356303; 1359724; 1363147; 1366569; 1369993; 1373417; 1376841; 1380266; 1383692; 1387118;
    1390545; 1393973; 1397401; 1400830; 1404260; 1407690; 1411121; 1414552; 1417985; 1421418;
    1424851; 1428286; 1431721; 1435156; 1438593; 1442030; 1445468; 1448907; 1452346; 1455787;
    1459228; 1462669; 1466112; 1469555; 1473000; 1476445; 1479891; 1483337; 1486785; 1490233;
    1493682; 1497132; 1500583; 1504035; 1507488; 1510942; 1514396; 1517851; 1521308; 1524765;
    1528223; 1531682; 1535142; 1538603; 1542065; 1545528; 1548992; 1552457; 1555922; 1559389;
    1562857; 1566326; 1569796; 1573267; 1576739; 1580212; 1583686; 1587161; 1590637; 1594114;
    1597592; 1601072; 1604552; 1608034; 1611516; 1615000; 1618485; 1621971; 1625458; 1628947;
    1632436; 1635927; 1639419; 1642912; 1646406; 1649901; 1653398; 1656896; 1660395; 1663895;
    1667396; 1670899; 1674403; 1677908; 1681415; 1684922; 1688431]);
   (1000000, [1602264; 1600191; 1598174; 1596210; 1594300; 1592439; 1590627; 1588863; 1587144; 1585469;
    1583836; 1582245; 1580693; 1579180; 1577705; 1576265; 1574861; 1573490; 1572153; 1570847;
    1569572; 1568327; 1567111; 1565923; 1564762; 1563628; 1562519; 1561436; 1560377; 1559341;
    1558328; 1557337; 1556368; 1555420; 1554492; 1553584; 1552695; 1551825; 1550973; 1550139;
    1549322; 1548521; 1547737; 1546969; 1546217; 1545479; 1544756; 1544048; 1543353; 1542672;
    1542004; 1541349; 1540707; 1540076; 1539458; 1538851; 1538256; 1537672; 1537099; 1536536;
    1535983; 1535440; 1534908; 1534384; 1533871; 1533366; 1532870; 1532383; 1531904; 1531434;
    1530972; 1530517; 1530071; 1529632; 1529200; 1528776; 1528359; 1527949; 1527545; 1527148;
    1526758; 1526374; 1525996; 1525624; 1525259; 1524899; 1524544; 1524196; 1523852; 1523514;
    1523182; 1522854; 1522532; 1522214; 1521901; 1521593; 1521290; 1520991; 1520697; 1520407;
    1520121; 1519840; 1519562; 1519289; 1519019; 1518754; 1518492; 1518234; 1517980; 1517729;
    1517482; 1517238; 1516997; 1516760; 1516526; 1516296; 1516068; 1515844; 1515623; 1515405;
    1515189; 1514977; 1514767; 1514560; 1514356; 1514155; 1513956; 1513759; 1513566; 1513374;
    1513186; 1512999; 1512815; 1512634; 1512454; 1512277; 1512102; 1511930; 1511759; 1511591;
    1511424; 1511260; 1511098; 1510937; 1510779; 1510622; 1510468; 1510315; 1510164; 1510015;
    1509867; 1509722; 1509578; 1509435; 1509295; 1509156; 1509018; 1508882; 1508748; 1508615;
    1508484; 1508354; 1508226; 1508099; 1507974; 1507850; 1507727; 1507606; 1507486; 1507367;
    1507250; 1507134; 1507019; 1506905; 1506793; 1506682; 1506572; 1506463; 1506355; 1506249;
    1506143; 1506039; 1505936; 1505834; 1505733; 1505633; 1505534; 1505436; 1505339; 1505243;
    1505148; 1505054; 1504961; 1504868; 1504777; 1504687; 1504597; 1504509; 1504421; 1504334;
    1504248; 1504163; 1504079; 1503996; 1503913; 1503831; 1503750; 1503670; 1503590; 1503511;
    1503433; 1503356; 1503279; 1503204; 1503129; 1503054; 1502980; 1502907; 1502835; 1502763;
    1502692; 1502622; 1502552; 1502483; 1502414; 1502347; 1502279; 1502213; 1502147; 1502081;
    1502016; 1501952; 1501888; 1501825; 1501762; 1501700; 1501639; 1501578; 1501517; 1501457;
    1501398; 1501339; 1501281; 1501223; 1501165; 1501108; 1501052; 1500996; 1500940; 1500885;
    1500831; 1500777; 1500723; 1500670; 1500617; 1500565; 1500513; 1500461; 1500410; 1500360;
    1500309; 1500260; 1500210; 1500161; 1500113; 1500064; 1500017; 1499969; 1499922; 1499875;
    1499829; 1499783; 1499737; 1499692; 1499647; 1499603; 1499558; 1499515; 1499471; 1499428;
    1499385; 1499343; 1499300; 1499259; 1499217; 1499176; 1499135; 1499094; 1499054; 1499014;
    1498974; 1498935; 1498896; 1498857; 1498818; 1498780; 1498742; 1498704; 1498667; 1498630;
    1498593; 1498556; 1498520; 1498484; 1498448; 1498413; 1498377; 1498342; 1498308; 1498273;
    1498239; 1498205; 1498171; 1498137; 1498104; 1498071; 1498038; 1498006; 1497973; 1497941;
    1497909; 1497877; 1497846; 1497815; 1497783; 1497753; 1497722; 1497692; 1497661; 1497631;
    1497601; 1497572; 1497542; 1497513; 1497484; 1497455; 1497427; 1497398; 1497370; 1497342;
    1497314; 1497286; 1497259; 1497232; 1497204; 1497177; 1497151; 1497124; 1497098; 1497071;
    1497045; 1497019; 1496994; 1496968; 1496943; 1496917; 1496892; 1496867; 1496843; 1496818;
    1496793; 1496769; 1496745; 1496721; 1496697; 1496673; 1496650; 1496626; 1496603; 1496580;
    1496557; 1496534; 1496511; 1496489; 1496467; 1496444; 1496422; 1496400; 1496378; 1496356;
    1496335; 1496313; 1496292; 1496271; 1496250; 1496229; 1496208; 1496187; 1496167; 1496146;
    1496126; 1496106; 1496086; 1496065; 1496046; 1496026; 1496006; 1495987; 1495967; 1495948;
    1495929; 1495910; 1495891; 1495872; 1495853; 1495835; 1495816; 1495798; 1495779; 1495761;
    1495743; 1495725; 1495707; 1495690; 1495672; 1495654; 1495637; 1495619; 1495602; 1495585;
    1495568; 1495551; 1495534; 1495517; 1495500; 1495484; 1495467; 1495451; 1495434; 1495418;
    1495402; 1495386; 1495370; 1495354; 1495338; 1495322; 1495307; 1495291; 1495276; 1495260;
    1495245; 1495230; 1495215; 1495200; 1495185; 1495170; 1495155; 1495140; 1495126; 1495111;
    1495096; 1495082; 1495068; 1495053; 1495039; 1495025; 1495011; 1494997; 1494983; 1494969;
    1494955; 1494942; 1494928; 1494915; 1494901; 1494888; 1494874; 1494861; 1494848; 1494835;
    1494822; 1494809; 1494796; 1494783; 1494770; 1494757; 1494745; 1494732; 1494631; 1494604;
    1494578; 1494552; 1494526; 1494501; 1494475; 1494451; 1494426; 1494401; 1494377; 1494353;
    1494330; 1494306; 1494283; 1494260; 1494238; 1494215; 1494193; 1494171; 1494149; 1494127;
    1494106; 1494085; 1494064; 1494043; 1494022; 1494002; 1493982; 1493962; 1493942; 1493922;
    1493903; 1493884; 1493865; 1493846; 1493827; 1493809; 1493790; 1493772; 1493754; 1493736;
    1493719; 1493701; 1493684; 1493667; 1493650; 1493633; 1493616; 1493599; 1493583; 1493567;
    1493551; 1493535; 1493519; 1493503; 1493487; 1493472; 1493457; 1493442; 1493426; 1493412;
    1493397; 1493382; 1493368; 1493353; 1493339; 1493325; 1493311; 1493297; 1493283; 1493269;
    1493256; 1493242; 1493229; 1493216; 1493202; 1493189; 1493176; 1493164; 1493151; 1493138;
    1493126; 1493114; 1493101; 1493089; 1493077; 1493065; 1493053; 1493041; 1493029; 1493018;
    1493006; 1492995; 1492983; 1492972; 1492961; 1492950; 1492939; 1492928; 1492917; 1492906;
    1492895; 1492885; 1492874; 1492864; 1492854; 1492843; 1492833; 1492823; 1492813; 1492803;
    1492793; 1492783; 1492773; 1492764; 1492754; 1492745; 1492735; 1492726; 1492716; 1492707;
    1492698; 1492689; 1492680; 1492671; 1492662; 1492653; 1492644; 1492635; 1492627; 1492618;
    1492609; 1492601; 1492592; 1492584; 1492576; 1492567; 1492559; 1492551; 1492543; 1492535;
    1492527; 1492519; 1492511; 1492503; 1492495; 1492488; 1492480; 1492472; 1492465; 1492457;
    1492450; 1492442; 1492435; 1492428; 1492420; 1492413; 1492406; 1492399; 1492392; 1492385;
    1492378; 1492371; 1492364; 1492357; 1492350; 1492343; 1492337; 1492330; 1492323; 1492317;
    1492310; 1492304; 1492297; 1492291; 1492284; 1492278; 1492272; 1492265; 1492259; 1492253;
    1492247; 1492241; 1492235; 1492229; 1492223; 1492217; 1492211; 1492205; 1492199; 1492193;
    1492187; 1492182; 1492176; 1492170; 1492164; 1492159]);
   (1000000, [9484; 9341; 9201; 9065; 8933; 8804; 8679; 8557; 8438; 8322; 8210; 8100; 7993; 7888; 7787; 7687;
    7590; 7496; 7404; 7313; 7225; 7140; 7056; 6974; 6893; 6815; 6738; 6664; 6590; 6519; 6448; 6380;
    6313; 6247; 6183; 6120; 6058; 5997; 5938; 5880; 5823; 5767; 5713; 5659; 5607; 5555; 5504; 5455;
    5406; 5358; 5311; 5265; 5220; 5176; 5132; 5090; 5048; 5006; 4966; 4926; 4887; 4848; 4810; 4773;
    4737; 4701; 4665; 4631; 4596; 4563; 4530; 4497; 4465; 4434; 4403; 4372; 4342; 4312; 4283; 4254;
    4226; 4198; 4171; 4144; 4117; 4091; 4065; 4040; 4015; 3990; 3966; 3941; 3918; 3894; 3871; 3849;
    3826; 3804; 3782; 3761; 3740; 3719; 3698; 3678; 3658; 3638; 3618; 3599; 3580; 3561; 3543; 3524;
    3506; 3488; 3471; 3453; 3436; 3419; 3402; 3386; 3369; 3353; 3337; 3321; 3306; 3290; 3275; 3260;
    3245; 3230; 3216; 3201; 3187; 3173; 3159; 3145; 3132; 3118; 3105; 3092; 3079; 3066; 3053; 3041;
    3028; 3016; 3004; 2992; 2980; 2968; 2957; 2945; 2934; 2922; 2911; 2900; 2889; 2878; 2868; 2857;
    2846; 2836; 2826; 2815; 2805; 2795; 2785; 2776; 2766; 2756; 2747; 2737; 2728; 2719; 2710; 2701;
    2692; 2683; 2674; 2665; 2656; 2648; 2639; 2631; 2623; 2614; 2606; 2598; 2590; 2582; 2574; 2566;
    2558; 2551; 2543; 2536; 2528; 2521; 2513; 2506; 2499; 2491; 2484; 2477; 2470; 2463; 2456; 2450;
    2443; 2436; 2430; 2423; 2416; 2410; 2403; 2397; 2391; 2384; 2378; 2372; 2366; 2360; 2354; 2348;
    2342; 2336; 2330; 2324; 2318; 2313; 2307; 2301; 2296; 2290; 2285; 2279; 2274; 2269; 2263; 2258;
    2253; 2247; 2242; 2237; 2232; 2227; 2222; 2217; 2212; 2207; 2202; 2197; 2192; 2188; 2183; 2178;
    2174; 2169; 2164; 2160; 2155; 2151; 2146; 2142; 2137; 2133; 2128; 2124; 2120; 2116; 2111; 2107;
    2103; 2099; 2095; 2090; 2086; 2082; 2078; 2074; 2070; 2066; 2062; 2059; 2055; 2051; 2047; 2043;
    2039; 2036; 2032; 2028; 2025; 2021; 2017; 2014; 2010; 2007; 2003; 2000; 1996; 1993; 1989; 1986;
    1982; 1979; 1975; 1972; 1969; 1965; 1962; 1959; 1956; 1952; 1949; 1946; 1943; 1940; 1937; 1933;
    1930; 1927; 1924; 1921; 1918; 1915; 1912; 1909; 1906; 1903; 1900; 1897; 1895; 1892; 1889; 1886;
    1883; 1880; 1878; 1875; 1872; 1869; 1867; 1864; 1861; 1858; 1856; 1853; 1850; 1848; 1845; 1843;
    1840; 1837; 1835; 1832; 1830; 1827; 1825; 1822; 1820; 1817; 1815; 1812; 1810; 1808; 1805; 1803;
    1800; 1798; 1796; 1793; 1791; 1789; 1786; 1784; 1782; 1780; 1777; 1775; 1773; 1771; 1768; 1766;
    1764; 1762; 1760; 1758; 1755; 1753; 1751; 1749; 1747; 1745; 1743; 1741; 1739; 1737; 1735; 1733;
    1730; 1728; 1726; 1724; 1722; 1721; 1719; 1717; 1715; 1713; 1711; 1709; 1707; 1705; 1703; 1701;
    1699; 1698; 1696; 1694; 1692; 1690; 1688; 1687; 1685; 1683; 1681; 1679; 1678; 1676; 1674; 1672;
    1671; 1669; 1667; 1665; 1664; 1662; 1660; 1659; 1657; 1655; 1654; 1652; 1650; 1649; 1647; 1645;
    1644; 1642; 1641; 1639; 1637; 1636; 1634; 1633; 1631; 1629; 1628; 1626; 1625; 1623; 1622; 1620;
    1619; 1617; 1616; 1614; 1613; 1611; 1610; 1608; 1607; 1605; 1604; 1603; 1601; 1600; 1588; 1585;
    1582; 1579; 1576; 1573; 1570; 1567; 1564; 1562; 1559; 1556; 1553; 1550; 1548; 1545; 1542; 1540;
    1537; 1534; 1532; 1529; 1527; 1524; 1522; 1519; 1517; 1514; 1512; 1509; 1507; 1505; 1502; 1500;
    1498; 1495; 1493; 1491; 1488; 1486; 1484; 1482; 1480; 1477; 1475; 1473; 1471; 1469; 1467; 1465;
    1463; 1460; 1458; 1456; 1454; 1452; 1450; 1448; 1446; 1445; 1443; 1441; 1439; 1437; 1435; 1433;
    1431; 1429; 1428; 1426; 1424; 1422; 1420; 1419; 1417; 1415; 1413; 1412; 1410; 1408; 1407; 1405;
    1403; 1402; 1400; 1398; 1397; 1395; 1393; 1392; 1390; 1389; 1387; 1386; 1384; 1382; 1381; 1379;
    1378; 1376; 1375; 1373; 1372; 1371; 1369; 1368; 1366; 1365; 1363; 1362; 1360; 1359; 1358; 1356;
    1355; 1354; 1352; 1351; 1349; 1348; 1347; 1346; 1344; 1343; 1342; 1340; 1339; 1338; 1336; 1335;
    1334; 1333; 1331; 1330; 1329; 1328; 1327; 1325; 1324; 1323; 1322; 1321; 1319; 1318; 1317; 1316;
    1315; 1314; 1312; 1311; 1310; 1309; 1308; 1307; 1306; 1305; 1303; 1302; 1301; 1300; 1299; 1298;
    1297; 1296; 1295; 1294; 1293; 1292; 1291; 1290; 1289; 1288; 1287; 1286; 1285; 1284; 1283; 1282;
    1281; 1280; 1279; 1278; 1277; 1276; 1275; 1274; 1273; 1272; 1271; 1270; 1269; 1268; 1267; 1266;
    1265; 1265; 1264; 1263])].

(** polymer_diffuse.csv, 676 rows *)
Definition mat_polymer_diffuse : list (Z * list Z) :=
  [(1000000, [245581; 247181; 248781; 250381; 251981; 253581; 255182; 256782; 258382; 259982; 261582; 263182;
    264783; 266383; 267983; 269583; 271183; 272783; 274384; 275984; 277584; 279184; 280784; 282384;
    283984; 285584; 287184; 288784; 290384; 291984; 293584; 295184; 296784; 298384; 299984; 301584;
    303184; 304784; 306384; 307984; 309584; 311184; 312783; 314383; 315983; 317583; 319183; 320782;
    322382; 323982; 325581; 327181; 328780; 330380; 331980; 333579; 335179; 336778; 338378; 339977;
    341576; 343176; 344775; 346374; 347974; 349573; 351172; 352771; 354370; 355969; 357568; 359168;
    360767; 362365; 363964; 365563; 367162; 368761; 370360; 371958; 373557; 375156; 376754; 378353;
    379952; 381550; 383148; 384747; 386345; 387944; 389542; 391140; 392738; 394336; 395935; 397533;
    399131; 400729; 402326; 403924; 405522; 407120; 408718; 410315; 411913; 413510; 415108; 416705;
    418303; 419900; 421497; 423095; 424692; 426289; 427886; 429483; 431080; 432677; 434274; 435870;
    437467; 439064; 440660; 442257; 443853; 445450; 447046; 448642; 450238; 451834; 453431; 455027;
    456622; 458218; 459814; 461410; 463006; 464601; 466197; 467792; 469388; 470983; 472578; 474173;
    475768; 477363; 478958; 480553; 482148; 483743; 485337; 486932; 488526; 490121; 491715; 493309;
    494904; 496498; 498092; 499686; 501279; 502873; 504467; 506061; 507654; 509248; 510841; 512434;
    514027; 515620; 517214; 518806; 520399; 521992; 523585; 525177; 526770; 528362; 529954; 531547;
    533139; 534731; 536323; 537915; 539506; 541098; 542690; 544281; 545872; 547464; 549055; 550646;
    552237; 553828; 555419; 557009; 558600; 560190; 561781; 563371; 564961; 566551; 568141; 569731;
    571321; 572910; 574500; 576089; 577679; 579268; 580857; 582446; 584035; 585624; 587212; 588801;
    590389; 591978; 593566; 595154; 596742; 598330; 599918; 601505; 603093; 604681; 606268; 607855;
    609442; 611029; 612616; 614203; 615789; 617376; 618962; 620548; 622135; 623721; 625306; 626892;
    628478; 630063; 631649; 633234; 634819; 636404; 637989; 639574; 641159; 642743; 644327; 645912;
    647496; 649080; 650664; 652247; 653831; 655414; 656998; 658581; 660164; 661747; 663330; 664912;
    666495; 668077; 669660; 671242; 672824; 674405; 675987; 677569; 679150; 680731; 682313; 683893;
    685474; 687055; 688636; 690216; 691796; 693376; 694956; 696536; 698116; 699695; 701275; 702854;
    704433; 706012; 707591; 709170; 710748; 712326; 713905; 715483; 717061; 718638; 720216; 721793;
    723371; 724948; 726525; 728101; 729678; 731255; 732831; 734407; 735983; 737559; 739135; 740710;
    742286; 743861; 745436; 747011; 748585; 750160; 751734; 753308; 754883; 756456; 758030; 759604;
    761177; 762750; 764323; 765896; 767469; 769042; 770614; 772186; 773758; 775330; 776902; 778473;
    780045; 781616; 783187; 784758; 786328; 787899; 789469; 791039; 792609; 794179; 795748; 797318;
    798887; 800456; 802025; 803593; 805162; 806730; 808298; 809866; 811434; 813001; 814569; 816136;
    817703; 819270; 820836; 822403; 823969; 825535; 827101; 828667; 830232; 831798; 833363; 834928;
    836492; 838057; 839621; 841185; 842749; 844313; 845877; 847440; 849003; 850566; 852129; 853691;
    855254; 856816; 858378; 859940; 861501; 863063; 864624; 866185; 867745; 869306; 870866; 872426;
    873986; 875546; 877106; 878665; 880224; 881783; 883341; 884900; 886458; 888016; 889574; 891132;
    892689; 894246; 895803; 897360; 898917; 900473; 902029; 903585; 905141; 906696; 908252; 909807;
    911362; 912916; 914471; 916025; 917579; 919132; 920686; 922239; 923792; 925345; 926898; 928450;
    930002; 931554; 933106; 934658; 936209; 937760; 939311; 940861; 942412; 943962; 945512; 947061;
    948611; 950160; 951709; 953258; 954806; 956354; 957902; 959450; 960998; 962545; 964092; 965639;
    967186; 968732; 970278; 971824; 973370; 974915; 976461; 978005; 979550; 981095; 982639; 984183;
    985727; 987270; 988813; 990356; 991899; 993442; 994984; 996526; 998068; 999609; 1012269;
    1015673; 1019077; 1022481; 1025884; 1029287; 1032690; 1036093; 1039496; 1042899; 1046301;
    1049703; 1053105; 1056507; 1059909; 1063311; 1066713; 1070115; 1073516; 1076917; 1080319;
    1083720; 1087121; 1090523; 1093924; 1097325; 1100726; 1104127; 1107529; 1110930; 1114331;
    1117732; 1121133; 1124534; 1127935; 1131337; 1134738; 1138139; 1141541; 1144943; 1148344;
    1151746; 1155148; 1158550; 1161952; 1165354; 1168756; 1172158; 1175561; 1178964; 1182367;
    1185770; 1189173; 1192576; 1195980; 1199384; 1202788; 1206192; 1209596; 1213001; 1216406;
    1219811; 1223216; 1226622; 1230028; 1233434; 1236840; 1240247; 1243654; 1247062; 1250469;
    1253877; 1257286; 1260694; 1264103; 1267512; 1270922; 1274332; 1277743; 1281154; 1284565;
    1287976; 1291388; 1294801; 1298214; 1301627; 1305040; 1308455; 1311869; 1315284; 1318700;
    1322116; 1325532; 1328949; 1332366; 1335784; 1339203; 1342622; 1346041; 1349461; 1352882;
    1356303; 1359724; 1363147; 1366569; 1369993; 1373417; 1376841; 1380266; 1383692; 1387118;
    1390545; 1393973; 1397401; 1400830; 1404260; 1407690; 1411121; 1414552; 1417985; 1421418;
    1424851; 1428286; 1431721; 1435156; 1438593; 1442030; 1445468; 1448907; 1452346; 1455787;
    1459228; 1462669; 1466112; 1469555; 1473000; 1476445; 1479891; 1483337; 1486785; 1490233;
    1493682; 1497132; 1500583; 1504035; 1507488; 1510942; 1514396; 1517851; 1521308; 1524765;
    1528223; 1531682; 1535142; 1538603; 1542065; 1545528; 1548992; 1552457; 1555922; 1559389;
    1562857; 1566326; 1569796; 1573267; 1576739; 1580212; 1583686; 1587161; 1590637; 1594114;
    1597592; 1601072; 1604552; 1608034; 1611516; 1615000; 1618485; 1621971; 1625458; 1628947;
    1632436; 1635927; 1639419; 1642912; 1646406; 1649901; 1653398; 1656896; 1660395; 1663895;
    1667396; 1670899; 1674403; 1677908; 1681415; 1684922; 1688431]);
   (1000000, [1602264; 1600191; 1598174; 1596210; 1594300; 1592439; 1590627; 1588863; 1587144; 1585469;
    1583836; 1582245; 1580693; 1579180; 1577705; 1576265; 1574861; 1573490; 1572153; 1570847;
    1569572; 1568327; 1567111; 1565923; 1564762; 1563628; 1562519; 1561436; 1560377; 1559341;
    1558328; 1557337; 1556368; 1555420; 1554492; 1553584; 1552695; 1551825; 1550973; 1550139;
    1549322; 1548521; 1547737; 1546969; 1546217; 1545479; 1544756; 1544048; 1543353; 1542672;
    1542004; 1541349; 1540707; 1540076; 1539458; 1538851; 1538256; 1537672; 1537099; 1536536;
    1535983; 1535440; 1534908; 1534384; 1533871; 1533366; 1532870; 1532383; 1531904; 1531434;
    1530972; 1530517; 1530071; 1529632; 1529200; 1528776; 1528359; 1527949; 1527545; 1527148;
    1526758; 1526374; 1525996; 1525624; 1525259; 1524899; 1524544; 1524196; 1523852; 1523514;
    1523182; 1522854; 1522532; 1522214; 1521901; 1521593; 1521290; 1520991; 1520697; 1520407;
    1520121; 1519840; 1519562; 1519289; 1519019; 1518754; 1518492; 1518234; 1517980; 1517729;
    1517482; 1517238; 1516997; 1516760; 1516526; 1516296; 1516068; 1515844; 1515623; 1515405;
    1515189; 1514977; 1514767; 1514560; 1514356; 1514155; 1513956; 1513759; 1513566; 1513374;
    1513186; 1512999; 1512815; 1512634; 1512454; 1512277; 1512102; 1511930; 1511759; 1511591;
    1511424; 1511260; 1511098; 1510937; 1510779; 1510622; 1510468; 1510315; 1510164; 1510015;
    1509867; 1509722; 1509578; 1509435; 1509295; 1509156; 1509018; 1508882; 1508748; 1508615;
    1508484; 1508354; 1508226; 1508099; 1507974; 1507850; 1507727; 1507606; 1507486; 1507367;
    1507250; 1507134; 1507019; 1506905; 1506793; 1506682; 1506572; 1506463; 1506355; 1506249;
    1506143; 1506039; 1505936; 1505834; 1505733; 1505633; 1505534; 1505436; 1505339; 1505243;
    1505148; 1505054; 1504961; 1504868; 1504777; 1504687; 1504597; 1504509; 1504421; 1504334;
    1504248; 1504163; 1504079; 1503996; 1503913; 1503831; 1503750; 1503670; 1503590; 1503511;
    1503433; 1503356; 1503279; 1503204; 1503129; 1503054; 1502980; 1502907; 1502835; 1502763;
    1502692; 1502622; 1502552; 1502483; 1502414; 1502347; 1502279; 1502213; 1502147; 1502081;
    1502016; 1501952; 1501888; 1501825; 1501762; 1501700; 1501639; 1501578; 1501517; 1501457;
    1501398; 1501339; 1501281; 1501223; 1501165; 1501108; 1501052; 1500996; 1500940; 1500885;
    1500831; 1500777; 1500723; 1500670; 1500617; 1500565; 1500513; 1500461; 1500410; 1500360;
    1500309; 1500260; 1500210; 1500161; 1500113; 1500064; 1500017; 1499969; 1499922; 1499875;
    1499829; 1499783; 1499737; 1499692; 1499647; 1499603; 1499558; 1499515; 1499471; 1499428;
    1499385; 1499343; 1499300; 1499259; 1499217; 1499176; 1499135; 1499094; 1499054; 1499014;
    1498974; 1498935; 1498896; 1498857; 1498818; 1498780; 1498742; 1498704; 1498667; 1498630;
    1498593; 1498556; 1498520; 1498484; 1498448; 1498413; 1498377; 1498342; 1498308; 1498273;
    1498239; 1498205; 1498171; 1498137; 1498104; 1498071; 1498038; 1498006; 1497973; 1497941;
    1497909; 1497877; 1497846; 1497815; 1497783; 1497753; 1497722; 1497692; 1497661; 1497631;
    1497601; 1497572; 1497542; 1497513; 1497484; 1497455; 1497427; 1497398; 1497370; 1497342;
    1497314; 1497286; 1497259; 1497232; 1497204; 1497177; 1497151; 1497124; 1497098; 1497071;
    1497045; 1497019; 1496994; 1496968; 1496943; 1496917; 1496892; 1496867; 1496843; 1496818;
    1496793; 1496769; 1496745; 1496721; 1496697; 1496673; 1496650; 1496626; 1496603; 1496580;
    1496557; 1496534; 1496511; 1496489; 1496467; 1496444; 1496422; 1496400; 1496378; 1496356;
    1496335; 1496313; 1496292; 1496271; 1496250; 1496229; 1496208; 1496187; 1496167; 1496146;
    1496126; 1496106; 1496086; 1496065; 1496046; 1496026; 1496006; 1495987; 1495967; 1495948;
    1495929; 1495910; 1495891; 1495872; 1495853; 1495835; 1495816; 1495798; 1495779; 1495761;
    1495743; 1495725; 1495707; 1495690; 1495672; 1495654; 1495637; 1495619; 1495602; 1495585;
    1495568; 1495551; 1495534; 1495517; 1495500; 1495484; 1495467; 1495451; 1495434; 1495418;
    1495402; 1495386; 1495370; 1495354; 1495338; 1495322; 1495307; 1495291; 1495276; 1495260;
    1495245; 1495230; 1495215; 1495200; 1495185; 1495170; 1495155; 1495140; 1495126; 1495111;
    1495096; 1495082; 1495068; 1495053; 1495039; 1495025; 1495011; 1494997; 1494983; 1494969;
    1494955; 1494942; 1494928; 1494915; 1494901; 1494888; 1494874; 1494861; 1494848; 1494835;
    1494822; 1494809; 1494796; 1494783; 1494770; 1494757; 1494745; 1494732; 1494631; 1494604;
    1494578; 1494552; 1494526; 1494501; 1494475; 1494451; 1494426; 1494401; 1494377; 1494353;
    1494330; 1494306; 1494283; 1494260; 1494238; 1494215; 1494193; 1494171; 1494149; 1494127;
    1494106; 1494085; 1494064; 1494043; 1494022; 1494002; 1493982; 1493962; 1493942; 1493922;
    1493903; 1493884; 1493865; 1493846; 1493827; 1493809; 1493790; 1493772; 1493754; 1493736;
    1493719; 1493701; 1493684; 1493667; 1493650; 1493633; 1493616; 1493599; 1493583; 1493567;
    1493551; 1493535; 1493519; 1493503; 1493487; 1493472; 1493457; 1493442; 1493426; 1493412;
    1493397; 1493382; 1493368; 1493353; 1493339; 1493325; 1493311; 1493297; 1493283; 1493269;
    1493256; 1493242; 1493229; 1493216; 1493202; 1493189; 1493176; 1493164; 1493151; 1493138;
    1493126; 1493114; 1493101; 1493089; 1493077; 1493065; 1493053; 1493041; 1493029; 1493018;
    1493006; 1492995; 1492983; 1492972; 1492961; 1492950; 1492939; 1492928; 1492917; 1492906;
    1492895; 1492885; 1492874; 1492864; 1492854; 1492843; 1492833; 1492823; 1492813; 1492803;
    1492793; 1492783; 1492773; 1492764; 1492754; 1492745; 1492735; 1492726; 1492716; 1492707;
    1492698; 1492689; 1492680; 1492671; 1492662; 1492653; 1492644; 1492635; 1492627; 1492618;
    1492609; 1492601; 1492592; 1492584; 1492576; 1492567; 1492559; 1492551; 1492543; 1492535;
    1492527; 1492519; 1492511; 1492503; 1492495; 1492488; 1492480; 1492472; 1492465; 1492457;
    1492450; 1492442; 1492435; 1492428; 1492420; 1492413; 1492406; 1492399; 1492392; 1492385;
    1492378; 1492371; 1492364; 1492357; 1492350; 1492343; 1492337; 1492330; 1492323; 1492317;
    1492310; 1492304; 1492297; 1492291; 1492284; 1492278; 1492272; 1492265; 1492259; 1492253;
    1492247; 1492241; 1492235; 1492229; 1492223; 1492217; 1492211; 1492205; 1492199; 1492193;
    1492187; 1492182; 1492176; 1492170; 1492164; 1492159]);
   (1000000, [9484; 9341; 9201; 9065; 8933; 8804; 8679; 8557; 8438; 8322; 8210; 8100; 7993; 7888; 7787; 7687;
    7590; 7496; 7404; 7313; 7225; 7140; 7056; 6974; 6893; 6815; 6738; 6664; 6590; 6519; 6448; 6380;
    6313; 6247; 6183; 6120; 6058; 5997; 5938; 5880; 5823; 5767; 5713; 5659; 5607; 5555; 5504; 5455;
    5406; 5358; 5311; 5265; 5220; 5176; 5132; 5090; 5048; 5006; 4966; 4926; 4887; 4848; 4810; 4773;
    4737; 4701; 4665; 4631; 4596; 4563; 4530; 4497; 4465; 4434; 4403; 4372; 4342; 4312; 4283; 4254;
    4226; 4198; 4171; 4144; 4117; 4091; 4065; 4040; 4015; 3990; 3966; 3941; 3918; 3894; 3871; 3849;
    3826; 3804; 3782; 3761; 3740; 3719; 3698; 3678; 3658; 3638; 3618; 3599; 3580; 3561; 3543; 3524;
    3506; 3488; 3471; 3453; 3436; 3419; 3402; 3386; 3369; 3353; 3337; 3321; 3306; 3290; 3275; 3260;
    3245; 3230; 3216; 3201; 3187; 3173; 3159; 3145; 3132; 3118; 3105; 3092; 3079; 3066; 3053; 3041;
    3028; 3016; 3004; 2992; 2980; 2968; 2957; 2945; 2934; 2922; 2911; 2900; 2889; 2878; 2868; 2857;
    2846; 2836; 2826; 2815; 2805; 2795; 2785; 2776; 2766; 2756; 2747; 2737; 2728; 2719; 2710; 2701;
    2692; 2683; 2674; 2665; 2656; 2648; 2639; 2631; 2623; 2614; 2606; 2598; 2590; 2582; 2574; 2566;
    2558; 2551; 2543; 2536; 2528; 2521; 2513; 2506; 2499; 2491; 2484; 2477; 2470; 2463; 2456; 2450;
    2443; 2436; 2430; 2423; 2416; 2410; 2403; 2397; 2391; 2384; 2378; 2372; 2366; 2360; 2354; 2348;
    2342; 2336; 2330; 2324; 2318; 2313; 2307; 2301; 2296; 2290; 2285; 2279; 2274; 2269; 2263; 2258;
    2253; 2247; 2242; 2237; 2232; 2227; 2222; 2217; 2212; 2207; 2202; 2197; 2192; 2188; 2183; 2178;
    2174; 2169; 2164; 2160; 2155; 2151; 2146; 2142; 2137; 2133; 2128; 2124; 2120; 2116; 2111; 2107;
    2103; 2099; 2095; 2090; 2086; 2082; 2078; 2074; 2070; 2066; 2062; 2059; 2055; 2051; 2047; 2043;
    2039; 2036; 2032; 2028; 2025; 2021; 2017; 2014; 2010; 2007; 2003; 2000; 1996; 1993; 1989; 1986;
    1982; 1979; 1975; 1972; 1969; 1965; 1962; 1959; 1956; 1952; 1949; 1946; 1943; 1940; 1937; 1933;
    1930; 1927; 1924; 1921; 1918; 1915; 1912; 1909; 1906; 1903; 1900; 1897; 1895; 1892; 1889; 1886;
    1883; 1880; 1878; 1875; 1872; 1869; 1867; 1864; 1861; 1858; 1856; 1853; 1850; 1848; 1845; 1843;
    1840; 1837; 1835; 1832; 1830; 1827; 1825; 1822; 1820; 1817; 1815; 1812; 1810; 1808; 1805; 1803;
    1800; 1798; 1796; 1793; 1791; 1789; 1786; 1784; 1782; 1780; 1777; 1775; 1773; 1771; 1768; 1766;
    1764; 1762; 1760; 1758; 1755; 1753; 1751; 1749; 1747; 1745; 1743; 1741; 1739; 1737; 1735; 1733;
    1730; 1728; 1726; 1724; 1722; 1721; 1719; 1717; 1715; 1713; 1711; 1709; 1707; 1705; 1703; 1701;
    1699; 1698; 1696; 1694; 1692; 1690; 1688; 1687; 1685; 1683; 1681; 1679; 1678; 1676; 1674; 1672;
    1671; 1669; 1667; 1665; 1664; 1662; 1660; 1659; 1657; 1655; 1654; 1652; 1650; 1649; 1647; 1645;
    1644; 1642; 1641; 1639; 1637; 1636; 1634; 1633; 1631; 1629; 1628; 1626; 1625; 1623; 1622; 1620;
    1619; 1617; 1616; 1614; 1613; 1611; 1610; 1608; 1607; 1605; 1604; 1603; 1601; 1600; 1588; 1585;
    1582; 1579; 1576; 1573; 1570; 1567; 1564; 1562; 1559; 1556; 1553; 1550; 1548; 1545; 1542; 1540;
    1537; 1534; 1532; 1529; 1527; 1524; 1522; 1519; 1517; 1514; 1512; 1509; 1507; 1505; 1502; 1500;
    1498; 1495; 1493; 1491; 1488; 1486; 1484; 1482; 1480; 1477; 1475; 1473; 1471; 1469; 1467; 1465;
    1463; 1460; 1458; 1456; 1454; 1452; 1450; 1448; 1446; 1445; 1443; 1441; 1439; 1437; 1435; 1433;
    1431; 1429; 1428; 1426; 1424; 1422; 1420; 1419; 1417; 1415; 1413; 1412; 1410; 1408; 1407; 1405;
    1403; 1402; 1400; 1398; 1397; 1395; 1393; 1392; 1390; 1389; 1387; 1386; 1384; 1382; 1381; 1379;
    1378; 1376; 1375; 1373; 1372; 1371; 1369; 1368; 1366; 1365; 1363; 1362; 1360; 1359; 1358; 1356;
    1355; 1354; 1352; 1351; 1349; 1348; 1347; 1346; 1344; 1343; 1342; 1340; 1339; 1338; 1336; 1335;
    1334; 1333; 1331; 1330; 1329; 1328; 1327; 1325; 1324; 1323; 1322; 1321; 1319; 1318; 1317; 1316;
    1315; 1314; 1312; 1311; 1310; 1309; 1308; 1307; 1306; 1305; 1303; 1302; 1301; 1300; 1299; 1298;
    1297; 1296; 1295; 1294; 1293; 1292; 1291; 1290; 1289; 1288; 1287; 1286; 1285; 1284; 1283; 1282;
    1281; 1280; 1279; 1278; 1277; 1276; 1275; 1274; 1273; 1272; 1271; 1270; 1269; 1268; 1267; 1266;
    1265; 1265; 1264; 1263])].

(** polystyrene.csv, 617 rows *)
Definition mat_polystyrene : list (Z * list Z) :=
  [(10000, [4000; 4100; 4200; 4300; 4400; 4500; 4600; 4700; 4800; 4900; 5000; 5100; 5200; 5300; 5400; 5500;
    5600; 5700; 5800; 5900; 6000; 6100; 6200; 6300; 6400; 6500; 6600; 6700; 6800; 6900; 7000; 7100;
    7200; 7300; 7400; 7500; 7600; 7700; 7800; 7900; 8000; 8100; 8200; 8300; 8400; 8500; 8600; 8700;
    8800; 8900; 9000; 9100; 9200; 9300; 9400; 9500; 9600; 9700; 9800; 9900; 10000; 10100; 10200;
    10300; 10400; 10500; 10600; 10700; 10800; 10900; 11000; 11100; 11200; 11300; 11400; 11500;
    11600; 11700; 11800; 11900; 12000; 12100; 12200; 12300; 12400; 12500; 12600; 12700; 12800;
    12900; 13000; 13100; 13200; 13300; 13400; 13500; 13600; 13700; 13800; 13900; 14000; 14100;
    14200; 14300; 14400; 14500; 14600; 14700; 14800; 14900; 15000; 15100; 15200; 15300; 15400;
    15500; 15600; 15700; 15800; 15900; 16000; 16100; 16200; 16300; 16400; 16500; 16600; 16700;
    16800; 16900; 17000; 17100; 17200; 17300; 17400; 17500; 17600; 17700; 17800; 17900; 18000;
    18100; 18200; 18300; 18400; 18500; 18600; 18700; 18800; 18900; 19000; 19100; 19200; 19300;
    19400; 19500; 19600; 19700; 19800; 19900; 20000; 20097; 20190; 20285; 20381; 20478; 20575;
    20673; 20773; 20873; 20975; 21077; 21180; 21285; 21390; 21496; 21568; 21676; 21785; 21896;
    21970; 22082; 22196; 22272; 22387; 22465; 22582; 22661; 22781; 22861; 22983; 23065; 23188;
    23272; 23398; 23482; 23568; 23697; 23784; 23872; 23960; 24093; 24183; 24274; 24365; 24457;
    24596; 24690; 24784; 24880; 24975; 25072; 25169; 25268; 25366; 25466; 25567; 25668; 25770;
    25873; 25976; 26081; 26186; 26293; 26400; 26454; 26562; 26671; 26782; 26893; 26949; 27061;
    27175; 27289; 27347; 27462; 27579; 27697; 27756; 27876; 27996; 28057; 28179; 28240; 28364;
    28489; 28551; 28678; 28741; 28869; 28998; 29063; 29194; 29260; 29393; 29460; 29594; 29662;
    29798; 29867; 29936; 30075; 30145; 30286; 30357; 30499; 30571; 30644; 30789; 30863; 30936;
    31085; 31159; 31234; 31386; 31462; 31538; 31693; 31770; 31848; 31927; 32085; 32164; 32244;
    32325; 32487; 32569; 32651; 32733; 32899; 32983; 33067; 33152; 33237; 33322; 33494; 33581;
    33668; 33756; 33844; 33933; 34022; 34111; 34292; 34383; 34474; 34566; 34658; 34751; 34845;
    34939; 35033; 35128; 35224; 35320; 35416; 35513; 35611; 35709; 35807; 35907; 36006; 36107;
    36207; 36309; 36411; 36513; 36617; 36720; 36825; 36930; 37035; 37141; 37248; 37355; 37463;
    37572; 37681; 37791; 37901; 38013; 38124; 38237; 38350; 38464; 38578; 38693; 38809; 38926;
    39043; 39161; 39280; 39399; 39519; 39640; 39762; 39884; 40007; 40131; 40255; 40381; 40507;
    40634; 40762; 40890; 41020; 41150; 41281; 41413; 41546; 41679; 41814; 41949; 42085; 42222;
    42360; 42499; 42639; 42780; 42921; 43064; 43208; 43352; 43498; 43644; 43791; 43940; 44089;
    44240; 44391; 44544; 44697; 44852; 45008; 45165; 45323; 45482; 45642; 45803; 45965; 46129;
    46294; 46460; 46627; 46795; 46965; 47136; 47308; 47481; 47655; 47831; 48008; 48187; 48367;
    48548; 48730; 48914; 49100; 49286; 49474; 49664; 49855; 50047; 50241; 50437; 50634; 50832;
    51033; 51234; 51438; 51643; 51849; 52057; 52267; 52479; 52692; 52907; 53124; 53343; 53563;
    53785; 54009; 54235; 54463; 54693; 54925; 55159; 55394; 55632; 55872; 56114; 56358; 56604;
    56852; 57103; 57355; 57610; 57867; 58127; 58389; 58653; 58919; 59188; 59460; 59734; 60011;
    60290; 60571; 60856; 61143; 61433; 61725; 62020; 62319; 62620; 62924; 63231; 63541; 63854;
    64170; 64489; 64811; 65137; 65466; 65798; 66134; 66473; 66816; 67162; 67512; 67865; 68223;
    68583; 68948; 69317; 69690; 70066; 70447; 70832; 71221; 71615; 72013; 72415; 72822; 73233;
    73649; 74070; 74496; 74926; 75362; 75803; 76249; 76700; 77156; 77618; 78086; 78559; 79038;
    79523; 80014; 80511; 81014; 81524; 82040; 82562; 83091; 83628; 84171; 84721; 85278; 85843;
    86415; 86995; 87583; 88179; 88783; 89395; 90016; 90645; 91284; 91931; 92588; 93254; 93930;
    94615; 95311; 96017; 96733; 97461; 98199; 98949; 99710; 100480; 101270; 102070; 102880; 103700;
    104530; 105380; 106250; 107130; 108020; 108930; 109850; 110790; 111740; 112720; 113700; 114710;
    115730; 116780; 117840; 118920; 120020; 121140; 122290; 123450; 124640; 125850; 127080; 128340;
    129620; 130930; 132270; 133630; 135020; 136450; 137900; 139380; 140890; 142440; 144030; 145640;
    147300; 148990; 150720; 152500; 154310; 156170; 158080; 160030; 162030; 164080; 166180; 168340;
    170560; 172830; 175170; 177570; 180030; 182570; 185180; 187860; 190620; 193470; 196400; 199420]);
   (100000, [162552; 162163; 161834; 161546; 161279; 161037; 160797; 160594; 160372; 160201; 160021; 159862;
    159721; 159587; 159443; 159338; 159217; 159084; 158996; 158898; 158820; 158734; 158653; 158554;
    158493; 158426; 158359; 158300; 158237; 158180; 158128; 158061; 158022; 157972; 157926; 157889;
    157821; 157770; 157746; 157703; 157674; 157637; 157618; 157580; 157563; 157539; 157513; 157489;
    157451; 157437; 157409; 157387; 157362; 157343; 157315; 157292; 157285; 157256; 157231; 157216;
    157211; 157197; 157197; 156996; 157013; 156990; 156958; 156904; 156938; 156916; 156904; 156911;
    156854; 156870; 156779; 156805; 156801; 156851; 156822; 156803; 156767; 156757; 156707; 156707;
    156665; 156688; 156667; 156692; 156712; 156643; 156571; 156643; 156600; 156583; 156593; 156618;
    156572; 156639; 156551; 156555; 156579; 156531; 156534; 156508; 156510; 156522; 156532; 156522;
    156510; 156533; 156463; 156471; 156419; 156448; 156478; 156484; 156451; 156462; 156449; 156403;
    156384; 156384; 156447; 156402; 156432; 156402; 156391; 156342; 156376; 156360; 156341; 156341;
    156363; 156390; 156383; 156336; 156349; 156337; 156328; 156336; 156314; 156316; 156293; 156309;
    156296; 156285; 156279; 156320; 156337; 156296; 156302; 156310; 156270; 156293; 156262; 156275;
    156273; 156303; 156332; 156277; 156256; 158013; 157816; 157629; 157637; 157668; 157491; 157307;
    157276; 157268; 156960; 156498; 156087; 155940; 156039; 156007; 155891; 155850; 155899; 155948;
    155989; 155992; 155973; 155961; 155943; 155951; 155937; 155898; 155863; 155819; 155770; 155805;
    155974; 155972; 155890; 155899; 155953; 155926; 155910; 155927; 155926; 156026; 156061; 155998;
    155879; 155783; 155785; 155840; 155913; 155901; 155826; 155814; 155819; 155786; 155789; 155834;
    155903; 155995; 156012; 155993; 155931; 155863; 155816; 155779; 155723; 155694; 155653; 155665;
    155659; 155643; 155634; 155665; 155711; 155817; 155843; 155782; 155683; 155700; 155730; 155717;
    155649; 155653; 155696; 155672; 155635; 155664; 155686; 155703; 155694; 155628; 155591; 155585;
    155621; 155646; 155658; 155647; 155598; 155596; 155631; 155639; 155639; 155579; 155535; 155510;
    155549; 155524; 155478; 155469; 155481; 155475; 155461; 155413; 155343; 155254; 155237; 155284;
    155295; 155180; 155058; 154952; 154870; 154737; 154672; 154610; 154574; 154667; 154742; 154859;
    154943; 154754; 155034; 155720; 156264; 156325; 156116; 155613; 155359; 155094; 154799; 154482;
    154232; 154242; 154738; 156790; 157444; 157594; 157450; 157221; 156992; 156755; 156622; 156748;
    157044; 157216; 157146; 156961; 156806; 156727; 156652; 156547; 156457; 156415; 156381; 156328;
    156280; 156239; 156192; 156144; 156127; 156138; 156128; 156089; 156071; 156086; 156092; 156068;
    156050; 156048; 156028; 156018; 156034; 156015; 155957; 155941; 155970; 155988; 155972; 155938;
    155896; 155875; 155887; 155887; 155866; 155855; 155858; 155843; 155839; 155857; 155861; 155840;
    155822; 155804; 155792; 155779; 155757; 155727; 155716; 155718; 155739; 155747; 155724; 155699;
    155713; 155751; 155757; 155669; 155643; 155646; 155630; 155709; 155771; 155718; 155666; 155664;
    155657; 155643; 155627; 155631; 155644; 155643; 155641; 155634; 155621; 155614; 155585; 155561;
    155570; 155575; 155531; 155514; 155533; 155535; 155495; 155465; 155464; 155475; 155470; 155428;
    155408; 155416; 155415; 155417; 155420; 155417; 155410; 155375; 155330; 155332; 155334; 155310;
    155286; 155265; 155226; 155203; 155185; 155126; 155079; 155096; 155143; 155238; 155309; 155309;
    155291; 155242; 155154; 155087; 155092; 155125; 155189; 155271; 155289; 155242; 155176; 155092;
    154993; 154945; 155002; 155082; 155129; 155144; 155129; 155042; 154767; 154548; 154690; 155012;
    155263; 155358; 155303; 155243; 155166; 155034; 154980; 154978; 154902; 154853; 154880; 154830;
    154720; 154587; 154460; 154228; 153801; 154106; 155100; 155443; 155355; 155229; 154999; 154766;
    154569; 154468; 154380; 154200; 153885; 153305; 152191; 153047; 155656; 156128; 154797; 153477;
    153216; 155525; 157473; 157327; 156564; 156021; 155686; 155434; 155165; 154919; 154836; 154989;
    155292; 155430; 155372; 155275; 155139; 155114; 155236; 155343; 155343; 155233; 155192; 155172;
    154956; 154608; 154331; 154200; 154343; 154802; 155321; 155586; 155640; 155559; 155301; 155099;
    155104; 155150; 154998; 154990; 155147; 155161; 155022; 154766; 154586; 154482; 154190; 153896;
    153765; 153795; 154121; 154636; 155001; 155209; 155102; 155269; 156222; 156781; 156524; 156224;
    155968; 155747; 155574; 155526; 155465; 155306; 155192; 155098; 154956; 154717; 154469; 154702;
    155262; 155390; 155142; 154911; 154510; 154091; 153725; 153594; 153690; 153612; 153241; 152903;
    152404; 151713; 150745; 149456; 148175; 147675; 149226; 152708; 156176; 157437; 155760; 152389;
    146750; 140602; 151292; 172776; 175952; 167295; 164037; 162211; 161111; 160119; 159346; 158726;
    158261; 158041; 157934; 157655; 157118; 156573; 156074; 155877; 155947; 156334; 157361; 159413;
    161088; 161181; 160843; 160549; 159856]);
   (1000000000, [813; 728; 682; 670; 650; 633; 612; 602; 609; 625; 611; 612; 572; 562; 570; 578; 607; 586; 595;
    583; 636; 631; 593; 614; 627; 583; 586; 573; 564; 582; 564; 602; 555; 576; 567; 551; 598; 608;
    546; 545; 554; 555; 448; 421; 534; 511; 529; 1220; 911; 820; 535; 493; 393; 285; 816; 400; 471;
    204; 234; 434; 349; 734; 739; 1010; 961; 982; 936; 904; 895; 1250; 1100; 1350; 1880; 4120;
    11300; 11400; 4520; 2960; 2450; 3440; 4600; 5240; 4030; 2790; 2060; 1680; 1660; 1880; 1270;
    1270; 1510; 1430; 1570; 1740; 2030; 2280; 2050; 3550; 4000; 4780; 5050; 5760; 6120; 5240; 5080;
    4490; 4010; 4000; 4650; 3230; 3060; 2820; 2640; 2450; 2250; 1890; 1960; 2130; 2410; 2840; 3320;
    4460; 8110; 19200; 26800; 24200; 38700; 105000; 160000; 137000; 84600; 54200; 48000; 44000;
    27300; 33400; 41700; 36200; 27200; 30600; 29100; 29700; 27200; 24400; 24800; 25600; 26800;
    24600; 21800; 21400; 21100; 21400; 19700; 18900; 18500; 19200; 18400; 17900; 17900; 17500;
    17600; 21400; 24500; 31000; 36900; 37700; 39100; 40500; 41300; 42900; 46000; 50500; 58400;
    74400; 100000; 3390000; 3890000; 3880000; 3590000; 4300000; 4750000; 97900; 90500; 85100;
    79700; 80300; 86300; 93200; 3390000; 3730000; 4100000; 3870000; 3620000; 3530000; 3760000;
    3950000; 4270000; 4370000; 3700000; 3620000; 3730000; 3600000; 3660000; 3840000; 3740000;
    3130000; 2890000; 3700000; 4510000; 4330000; 3470000; 3210000; 2960000; 2690000; 3150000;
    3640000; 4060000; 4180000; 3910000; 3480000; 2930000; 3050000; 3370000; 3950000; 4260000;
    3940000; 3080000; 3390000; 3670000; 3070000; 2730000; 3030000; 4190000; 4070000; 3540000;
    2820000; 2550000; 2340000; 2560000; 3090000; 3240000; 3270000; 3560000; 3620000; 3540000;
    3610000; 3480000; 3250000; 3320000; 3390000; 3680000; 3760000; 136000; 129000; 123000; 121000;
    115000; 112000; 108000; 110000; 113000; 118000; 120000; 125000; 129000; 2220000; 1860000;
    1860000; 2490000; 2590000; 2560000; 2570000; 2690000; 2970000; 2890000; 2560000; 2360000;
    2760000; 2970000; 3110000; 3140000; 3330000; 4250000; 5860000; 8030000; 11900000; 13300000;
    14300000; 14000000; 16500000; 21100000; 22200000; 17500000; 11400000; 7900000; 5820000;
    6230000; 7250000; 8480000; 10800000; 15900000; 23700000; 31700000; 33300000; 26900000;
    19900000; 14400000; 11200000; 9740000; 9930000; 11400000; 12600000; 11500000; 8270000; 5450000;
    4040000; 3480000; 3220000; 3210000; 3380000; 3270000; 2970000; 2840000; 2600000; 2290000;
    2300000; 2640000; 2940000; 3060000; 3030000; 2920000; 2900000; 2950000; 3130000; 3380000;
    3510000; 3280000; 3050000; 3110000; 3140000; 3030000; 2900000; 3020000; 3170000; 3190000;
    3220000; 3260000; 3310000; 3260000; 3000000; 2660000; 2560000; 2730000; 2970000; 2970000;
    2910000; 3090000; 3290000; 3260000; 3040000; 2830000; 2760000; 2840000; 2830000; 2860000;
    2920000; 2960000; 3020000; 2890000; 2600000; 2580000; 2880000; 3230000; 3500000; 3660000;
    3830000; 3790000; 3670000; 3790000; 3820000; 3620000; 3300000; 2970000; 2880000; 2930000;
    2980000; 3020000; 3040000; 2850000; 2590000; 2500000; 2750000; 2990000; 3070000; 3200000;
    3280000; 3180000; 3120000; 3050000; 2970000; 2930000; 2890000; 2840000; 2630000; 2460000;
    2700000; 3050000; 3210000; 3100000; 2800000; 2700000; 2800000; 2980000; 3100000; 3060000;
    3060000; 3040000; 2860000; 2920000; 3230000; 3250000; 3030000; 3020000; 3240000; 3410000;
    3550000; 4370000; 5210000; 5740000; 6260000; 5860000; 4940000; 4160000; 3440000; 3290000;
    3770000; 4430000; 5120000; 5730000; 5660000; 4660000; 3740000; 3410000; 3650000; 4020000;
    4340000; 5090000; 5960000; 5640000; 4510000; 3690000; 3560000; 5410000; 9800000; 13600000;
    14600000; 12700000; 9840000; 8330000; 7200000; 6260000; 5980000; 5720000; 5460000; 5580000;
    5430000; 4870000; 4580000; 4690000; 4570000; 4410000; 4790000; 9800000; 18500000; 18700000;
    12400000; 9440000; 6640000; 4610000; 4570000; 5460000; 5750000; 4910000; 4420000; 4700000;
    4690000; 15200000; 38500000; 37100000; 16700000; 7570000; 12100000; 34500000; 49600000;
    33600000; 15300000; 8670000; 6450000; 5550000; 5470000; 6640000; 9690000; 13900000; 16900000;
    16900000; 14500000; 12400000; 11000000; 10300000; 10100000; 10300000; 10500000; 10500000;
    10300000; 10400000; 9920000; 9620000; 12100000; 17200000; 23600000; 28900000; 31400000;
    29800000; 25700000; 20900000; 17100000; 14900000; 14400000; 14500000; 13800000; 14500000;
    15500000; 13500000; 10600000; 10000000; 10700000; 11500000; 12200000; 12800000; 14800000;
    19000000; 25000000; 30600000; 31800000; 31100000; 30600000; 31100000; 35400000; 35400000;
    26200000; 19300000; 16600000; 14100000; 13200000; 13700000; 14700000; 14400000; 12300000;
    11500000; 12100000; 11900000; 12700000; 16200000; 20400000; 19600000; 13300000; 8860000;
    8350000; 8180000; 8040000; 9070000; 11300000; 11600000; 9750000; 8560000; 7480000; 6540000;
    8220000; 10400000; 14700000; 28900000; 57200000; 89100000; 105000000; 90700000; 56600000;
    28200000; 17700000; 21700000; 132000000; 322000000; 290000000; 90500000; 16700000; 17300000;
    12800000; 11800000; 10600000; 11300000; 12200000; 14200000; 15400000; 16700000; 18600000;
    18900000; 18200000; 22700000; 30800000; 37700000; 44500000; 57000000; 63700000; 48600000;
    27300000; 18700000; 19300000; 16500000])].

(** silica.csv, 451 rows *)
Definition mat_silica : list (Z * list Z) :=
  [(1000, [250; 255; 260; 265; 270; 275; 280; 285; 290; 295; 300; 305; 310; 315; 320; 325; 330; 335; 340;
    345; 350; 355; 360; 365; 370; 375; 380; 385; 390; 395; 400; 405; 410; 415; 420; 425; 430; 435;
    440; 445; 450; 455; 460; 465; 470; 475; 480; 485; 490; 495; 500; 505; 510; 515; 520; 525; 530;
    535; 540; 545; 550; 555; 560; 565; 570; 575; 580; 585; 590; 595; 600; 605; 610; 615; 620; 625;
    630; 635; 640; 645; 650; 655; 660; 665; 670; 675; 680; 685; 690; 695; 700; 705; 710; 715; 720;
    725; 730; 735; 740; 745; 750; 755; 760; 765; 770; 775; 780; 785; 790; 795; 800; 805; 810; 815;
    820; 825; 830; 835; 840; 845; 850; 855; 860; 865; 870; 875; 880; 885; 890; 895; 900; 905; 910;
    915; 920; 925; 930; 935; 940; 945; 950; 955; 960; 965; 970; 975; 980; 985; 990; 995; 1000;
    1005; 1010; 1015; 1020; 1025; 1030; 1035; 1040; 1045; 1050; 1055; 1060; 1065; 1070; 1075; 1080;
    1085; 1090; 1095; 1100; 1105; 1110; 1115; 1120; 1125; 1130; 1135; 1140; 1145; 1150; 1155; 1160;
    1165; 1170; 1175; 1180; 1185; 1190; 1195; 1200; 1205; 1210; 1215; 1220; 1225; 1230; 1235; 1240;
    1245; 1250; 1255; 1260; 1265; 1270; 1275; 1280; 1285; 1290; 1295; 1300; 1305; 1310; 1315; 1320;
    1325; 1330; 1335; 1340; 1345; 1350; 1355; 1360; 1365; 1370; 1375; 1380; 1385; 1390; 1395; 1400;
    1405; 1410; 1415; 1420; 1425; 1430; 1435; 1440; 1445; 1450; 1455; 1460; 1465; 1470; 1475; 1480;
    1485; 1490; 1495; 1500; 1505; 1510; 1515; 1520; 1525; 1530; 1535; 1540; 1545; 1550; 1555; 1560;
    1565; 1570; 1575; 1580; 1585; 1590; 1595; 1600; 1605; 1610; 1615; 1620; 1625; 1630; 1635; 1640;
    1645; 1650; 1655; 1660; 1665; 1670; 1675; 1680; 1685; 1690; 1695; 1700; 1705; 1710; 1715; 1720;
    1725; 1730; 1735; 1740; 1745; 1750; 1755; 1760; 1765; 1770; 1775; 1780; 1785; 1790; 1795; 1800;
    1805; 1810; 1815; 1820; 1825; 1830; 1835; 1840; 1845; 1850; 1855; 1860; 1865; 1870; 1875; 1880;
    1885; 1890; 1895; 1900; 1905; 1910; 1915; 1920; 1925; 1930; 1935; 1940; 1945; 1950; 1955; 1960;
    1965; 1970; 1975; 1980; 1985; 1990; 1995; 2000; 2005; 2010; 2015; 2020; 2025; 2030; 2035; 2040;
    2045; 2050; 2055; 2060; 2065; 2070; 2075; 2080; 2085; 2090; 2095; 2100; 2105; 2110; 2115; 2120;
    2125; 2130; 2135; 2140; 2145; 2150; 2155; 2160; 2165; 2170; 2175; 2180; 2185; 2190; 2195; 2200;
    2205; 2210; 2215; 2220; 2225; 2230; 2235; 2240; 2245; 2250; 2255; 2260; 2265; 2270; 2275; 2280;
    2285; 2290; 2295; 2300; 2305; 2310; 2315; 2320; 2325; 2330; 2335; 2340; 2345; 2350; 2355; 2360;
    2365; 2370; 2375; 2380; 2385; 2390; 2395; 2400; 2405; 2410; 2415; 2420; 2425; 2430; 2435; 2440;
    2445; 2450; 2455; 2460; 2465; 2470; 2475; 2480; 2485; 2490; 2495; 2500]);
   (1000000, [1517462; 1515228; 1513136; 1511173; 1509329; 1507595; 1505961; 1504421; 1502966; 1501590;
    1500288; 1499055; 1497885; 1496774; 1495719; 1494715; 1493759; 1492849; 1491981; 1491152;
    1490361; 1489605; 1488882; 1488189; 1487527; 1486891; 1486282; 1485698; 1485137; 1484598;
    1484080; 1483582; 1483102; 1482641; 1482197; 1481768; 1481356; 1480958; 1480573; 1480203;
    1479844; 1479498; 1479164; 1478841; 1478528; 1478225; 1477932; 1477649; 1477374; 1477107;
    1476849; 1476599; 1476356; 1476121; 1475892; 1475670; 1475455; 1475245; 1475042; 1474844;
    1474652; 1474464; 1474283; 1474106; 1473933; 1473766; 1473602; 1473443; 1473288; 1473137;
    1472990; 1472847; 1472707; 1472570; 1472437; 1472307; 1472181; 1472057; 1471936; 1471818;
    1471703; 1471591; 1471481; 1471373; 1471268; 1471166; 1471065; 1470967; 1470871; 1470778;
    1470686; 1470596; 1470508; 1470422; 1470338; 1470255; 1470174; 1470095; 1470018; 1469942;
    1469867; 1469794; 1469723; 1469653; 1469584; 1469517; 1469451; 1469386; 1469323; 1469260;
    1469199; 1469139; 1469080; 1469023; 1468966; 1468910; 1468855; 1468802; 1468749; 1468697;
    1468646; 1468597; 1468547; 1468499; 1468452; 1468405; 1468360; 1468315; 1468270; 1468227;
    1468184; 1468142; 1468101; 1468060; 1468020; 1467981; 1467942; 1467904; 1467866; 1467830;
    1467793; 1467758; 1467722; 1467688; 1467654; 1467620; 1467587; 1467555; 1467523; 1467491;
    1467460; 1467429; 1467399; 1467369; 1467340; 1467311; 1467283; 1467255; 1467227; 1467200;
    1467173; 1467147; 1467121; 1467095; 1467070; 1467045; 1467020; 1466996; 1466972; 1466949;
    1466925; 1466902; 1466880; 1466857; 1466835; 1466813; 1466792; 1466771; 1466750; 1466729;
    1466709; 1466689; 1466669; 1466649; 1466630; 1466611; 1466592; 1466574; 1466555; 1466537;
    1466519; 1466502; 1466484; 1466467; 1466450; 1466433; 1466416; 1466400; 1466384; 1466368;
    1466352; 1466336; 1466321; 1466306; 1466290; 1466276; 1466261; 1466246; 1466232; 1466218;
    1466204; 1466190; 1466176; 1466162; 1466149; 1466136; 1466123; 1466110; 1466097; 1466084;
    1466071; 1466059; 1466047; 1466035; 1466023; 1466011; 1465999; 1465987; 1465976; 1465965;
    1465953; 1465942; 1465931; 1465920; 1465910; 1465899; 1465888; 1465878; 1465868; 1465857;
    1465847; 1465837; 1465827; 1465818; 1465808; 1465798; 1465789; 1465779; 1465770; 1465761;
    1465752; 1465743; 1465734; 1465725; 1465716; 1465707; 1465699; 1465690; 1465682; 1465673;
    1465665; 1465657; 1465649; 1465641; 1465633; 1465625; 1465617; 1465609; 1465602; 1465594;
    1465587; 1465579; 1465572; 1465564; 1465557; 1465550; 1465543; 1465536; 1465529; 1465522;
    1465515; 1465508; 1465502; 1465495; 1465488; 1465482; 1465475; 1465469; 1465462; 1465456;
    1465450; 1465444; 1465438; 1465431; 1465425; 1465419; 1465413; 1465408; 1465402; 1465396;
    1465390; 1465385; 1465379; 1465373; 1465368; 1465362; 1465357; 1465351; 1465346; 1465341;
    1465335; 1465330; 1465325; 1465320; 1465315; 1465310; 1465305; 1465300; 1465295; 1465290;
    1465285; 1465280; 1465275; 1465271; 1465266; 1465261; 1465257; 1465252; 1465248; 1465243;
    1465239; 1465234; 1465230; 1465225; 1465221; 1465217; 1465212; 1465208; 1465204; 1465200;
    1465196; 1465192; 1465187; 1465183; 1465179; 1465175; 1465171; 1465167; 1465164; 1465160;
    1465156; 1465152; 1465148; 1465145; 1465141; 1465137; 1465133; 1465130; 1465126; 1465123;
    1465119; 1465115; 1465112; 1465108; 1465105; 1465102; 1465098; 1465095; 1465091; 1465088;
    1465085; 1465081; 1465078; 1465075; 1465072; 1465069; 1465065; 1465062; 1465059; 1465056;
    1465053; 1465050; 1465047; 1465044; 1465041; 1465038; 1465035; 1465032; 1465029; 1465026;
    1465023; 1465020; 1465017; 1465015; 1465012; 1465009; 1465006; 1465003; 1465001; 1464998;
    1464995; 1464993; 1464990; 1464987; 1464985; 1464982; 1464980; 1464977; 1464974; 1464972;
    1464969; 1464967; 1464964; 1464962; 1464959; 1464957; 1464955; 1464952; 1464950; 1464947;
    1464945; 1464943; 1464940; 1464938; 1464936; 1464933; 1464931; 1464929; 1464927; 1464924;
    1464922; 1464920; 1464918; 1464916; 1464913; 1464911; 1464909; 1464907; 1464905; 1464903;
    1464901; 1464899; 1464897; 1464895; 1464892; 1464890; 1464888; 1464886; 1464884; 1464882;
    1464881]);
   (1000000, [260; 240; 222; 206; 191; 179; 167; 157; 148; 139; 132; 125; 118; 112; 107; 102; 0; 0; 0; 0; 0;
    0; 0; 0; 0; 0; 0; 0; 0; 0; 0; 0; 0; 0; 0; 0; 0; 0; 0; 0; 0; 0; 0; 0; 0; 0; 0; 0; 0; 0; 0; 0; 0;
    0; 0; 0; 0; 0; 0; 0; 0; 0; 0; 0; 0; 0; 0; 0; 0; 0; 0; 0; 0; 0; 0; 0; 0; 0; 0; 0; 0; 0; 0; 0; 0;
    0; 0; 0; 0; 0; 0; 0; 0; 0; 0; 0; 0; 0; 0; 0; 0; 0; 0; 0; 0; 0; 0; 0; 0; 0; 0; 0; 0; 0; 0; 0; 0;
    0; 0; 0; 0; 0; 0; 0; 0; 0; 0; 0; 0; 0; 0; 0; 0; 0; 0; 0; 0; 0; 0; 0; 0; 0; 0; 0; 0; 0; 0; 0; 0;
    0; 0; 0; 0; 0; 0; 0; 0; 0; 0; 0; 0; 0; 0; 0; 0; 0; 0; 0; 0; 0; 0; 0; 0; 0; 0; 0; 0; 0; 0; 0; 0;
    0; 0; 0; 0; 0; 0; 0; 0; 0; 0; 0; 0; 0; 0; 0; 0; 0; 0; 0; 0; 0; 0; 0; 0; 0; 0; 0; 0; 0; 0; 0; 0;
    0; 0; 0; 0; 0; 0; 0; 0; 0; 0; 0; 0; 0; 0; 0; 0; 0; 0; 0; 0; 0; 0; 0; 0; 0; 0; 0; 0; 0; 0; 0; 0;
    0; 0; 0; 0; 0; 0; 0; 0; 0; 0; 0; 0; 0; 0; 0; 0; 0; 0; 0; 0; 0; 0; 0; 0; 0; 0; 0; 0; 0; 0; 0; 0;
    0; 0; 0; 0; 0; 0; 0; 0; 0; 0; 0; 0; 0; 0; 0; 0; 0; 0; 0; 0; 0; 0; 0; 0; 0; 0; 0; 0; 0; 0; 0; 0;
    0; 0; 0; 0; 0; 0; 0; 0; 0; 0; 0; 0; 0; 0; 0; 0; 0; 0; 0; 0; 0; 0; 0; 0; 0; 0; 0; 0; 0; 0; 0; 0;
    0; 0; 0; 0; 0; 0; 0; 0; 0; 0; 0; 0; 0; 0; 0; 0; 0; 0; 0; 0; 0; 0; 0; 0; 0; 0; 0; 0; 0; 0; 0; 0;
    0; 0; 0; 0; 0; 0; 0; 0; 0; 0; 0; 0; 0; 0; 0; 0; 0; 0; 0; 0; 0; 0; 0; 0; 0; 0; 0; 0; 0; 0; 0; 0;
    0; 0; 0; 0; 0; 0; 0; 0; 0; 0; 0; 0; 0; 0; 0; 0; 0; 0; 0; 0; 0; 0; 0; 0; 0; 0; 0; 0; 0; 0; 0; 0;
    0; 0; 0; 0; 0; 0; 0; 0; 0; 0; 0; 0; 0; 0])].

(** silicon.csv, 46 rows *)
Definition mat_silicon : list (Z * list Z) :=
  [(10000, [2066; 2101; 2138; 2175; 2214; 2254; 2296; 2339; 2384; 2431; 2480; 2530; 2583; 2638; 2695; 2755;
    2818; 2883; 2952; 3024; 3100; 3179; 3263; 3351; 3444; 3542; 3647; 3757; 3875; 3999; 4133; 4275;
    4428; 4592; 4769; 4959; 5166; 5391; 5636; 5904; 6199; 6525; 6888; 7293; 7749; 8266]);
   (1000, [1010; 1083; 1133; 1186; 1247; 1340; 1471; 1579; 1589; 1571; 1570; 1597; 1658; 1764; 1988; 2452;
    3120; 4087; 4888; 5020; 5010; 5016; 5065; 5156; 5296; 5610; 6522; 6709; 6062; 5570; 5222; 4961;
    4753; 4583; 4442; 4320; 4215; 4123; 4042; 3969; 3906; 3847; 3796; 3752; 3714; 3673]);
   (1000, [2909; 2982; 3045; 3120; 3206; 3302; 3366; 3353; 3354; 3429; 3565; 3749; 3979; 4278; 4678; 5082;
    5344; 5395; 4639; 3979; 3586; 3346; 3182; 3058; 2987; 3014; 2705; 1320; 630; 387; 269; 203;
    163; 130; 90; 73; 60; 48; 32; 30; 22; 16; 13; 10; 8; 5])].

(** void.csv, 2 rows *)
Definition mat_void : list (Z * list Z) :=
  [(100, [23; 169]);
   (1, [1; 1]);
   (1, [0; 0])].

(** water.csv, 169 rows *)
Definition mat_water : list (Z * list Z) :=
  [(1000, [200; 225; 250; 275; 300; 325; 350; 375; 400; 425; 450; 475; 500; 525; 550; 575; 600; 625; 650;
    675; 700; 725; 750; 775; 800; 825; 850; 875; 900; 925; 950; 975; 1000; 1200; 1400; 1600; 1800;
    2000; 2200; 2400; 2600; 2650; 2700; 2750; 2800; 2850; 2900; 2950; 3000; 3050; 3100; 3150; 3200;
    3250; 3300; 3350; 3400; 3450; 3500; 3600; 3700; 3800; 3900; 4000; 4100; 4200; 4300; 4400; 4500;
    4600; 4700; 4800; 4900; 5000; 5100; 5200; 5300; 5400; 5500; 5600; 5700; 5800; 5900; 6000; 6100;
    6200; 6300; 6400; 6500; 6600; 6700; 6800; 6900; 7000; 7100; 7200; 7300; 7400; 7500; 7600; 7700;
    7800; 7900; 8000; 8200; 8400; 8600; 8800; 9000; 9200; 9400; 9600; 9800; 10000; 10500; 11000;
    11500; 12000; 12500; 13000; 13500; 14000; 14500; 15000; 15500; 16000; 16500; 17000; 17500;
    18000; 18500; 19000; 19500; 20000; 21000; 22000; 23000; 24000; 25000; 26000; 27000; 28000;
    29000; 30000; 32000; 34000; 36000; 38000; 40000; 42000; 44000; 46000; 48000; 50000; 60000;
    70000; 80000; 90000; 100000; 110000; 120000; 130000; 140000; 150000; 160000; 170000; 180000;
    190000; 200000]);
   (1000, [1396; 1373; 1362; 1354; 1349; 1346; 1343; 1341; 1339; 1338; 1337; 1336; 1335; 1334; 1333; 1333;
    1332; 1332; 1331; 1331; 1331; 1330; 1330; 1330; 1329; 1329; 1329; 1328; 1328; 1328; 1327; 1327;
    1327; 1324; 1321; 1317; 1312; 1306; 1296; 1279; 1242; 1219; 1188; 1157; 1142; 1149; 1201; 1292;
    1371; 1426; 1467; 1483; 1478; 1467; 1450; 1432; 1420; 1410; 1400; 1385; 1374; 1364; 1357; 1351;
    1346; 1342; 1338; 1334; 1332; 1330; 1330; 1330; 1328; 1325; 1322; 1317; 1312; 1305; 1298; 1289;
    1277; 1262; 1248; 1265; 1319; 1363; 1357; 1347; 1339; 1334; 1329; 1324; 1321; 1317; 1314; 1312;
    1309; 1307; 1304; 1302; 1299; 1297; 1294; 1291; 1286; 1281; 1275; 1269; 1262; 1255; 1247; 1239;
    1229; 1218; 1185; 1153; 1126; 1111; 1123; 1146; 1177; 1210; 1241; 1270; 1297; 1325; 1351; 1376;
    1401; 1423; 1443; 1461; 1476; 1480; 1487; 1500; 1511; 1521; 1531; 1539; 1545; 1549; 1551; 1551;
    1546; 1536; 1527; 1522; 1519; 1522; 1530; 1541; 1555; 1587; 1703; 1821; 1886; 1924; 1957; 1966;
    2004; 2036; 2056; 2069; 2081; 2094; 2107; 2119; 2130]);
   (1000000000000, [110000; 49000; 33500; 23500; 16000; 10800; 6500; 3500; 1860; 1300; 1020; 935; 1000; 1320; 1960;
    3600; 10900; 13900; 16400; 22300; 33500; 91500; 156000; 148000; 125000; 182000; 293000; 391000;
    486000; 1060000; 2930000; 3480000; 2890000; 9890000; 138000000; 85500000; 115000000;
    1100000000; 289000000; 956000000; 3170000000; 6700000000; 19000000000; 59000000000;
    115000000000; 185000000000; 268000000000; 298000000000; 272000000000; 240000000000;
    192000000000; 135000000000; 92400000000; 61000000000; 36800000000; 26100000000; 19500000000;
    13200000000; 9400000000; 5150000000; 3600000000; 3400000000; 3800000000; 4600000000;
    5620000000; 6880000000; 8450000000; 10300000000; 13400000000; 14700000000; 15700000000;
    15000000000; 13700000000; 12400000000; 11100000000; 10100000000; 9800000000; 10300000000;
    11600000000; 14200000000; 20300000000; 33000000000; 62200000000; 107000000000; 131000000000;
    88000000000; 57000000000; 44900000000; 39200000000; 35600000000; 33700000000; 32700000000;
    32200000000; 32000000000; 32000000000; 32100000000; 32200000000; 32400000000; 32600000000;
    32800000000; 33100000000; 33500000000; 33900000000; 34300000000; 35100000000; 36100000000;
    37200000000; 38500000000; 39900000000; 41500000000; 43300000000; 45400000000; 47900000000;
    50800000000; 66200000000; 96800000000; 142000000000; 199000000000; 259000000000; 305000000000;
    343000000000; 370000000000; 388000000000; 402000000000; 414000000000; 422000000000;
    428000000000; 429000000000; 429000000000; 426000000000; 421000000000; 414000000000;
    404000000000; 393000000000; 382000000000; 373000000000; 367000000000; 361000000000;
    356000000000; 350000000000; 344000000000; 338000000000; 333000000000; 328000000000;
    324000000000; 329000000000; 343000000000; 361000000000; 385000000000; 409000000000;
    436000000000; 462000000000; 488000000000; 514000000000; 587000000000; 576000000000;
    547000000000; 536000000000; 532000000000; 531000000000; 526000000000; 514000000000;
    500000000000; 495000000000; 496000000000; 497000000000; 499000000000; 501000000000;
    504000000000])].

(** dispersion.py:17-20: the names, from the directory listing *)
Definition material_files : list (string * list (Z * list Z)) :=
  [("air"%string, mat_air);
   ("aluminium_oxide"%string, mat_aluminium_oxide);
   ("dmso"%string, mat_dmso);
   ("gold"%string, mat_gold);
   ("pnipam"%string, mat_pnipam);
   ("polymer_diffuse"%string, mat_polymer_diffuse);
   ("polystyrene"%string, mat_polystyrene);
   ("silica"%string, mat_silica);
   ("silicon"%string, mat_silicon);
   ("void"%string, mat_void);
   ("water"%string, mat_water)].
Definition materials : list string := map fst material_files.

(** the numbers np.loadtxt reads *)
Definition column (c : Z * list Z) : list R := map (fun z => IZR z / IZR (fst c))%R (snd c).

Fixpoint lookup {A} (k : string) (l : list (string * A)) : option A :=
  match l with
  | [] => None
  | (k', a) :: l' => if String.eqb k k' then Some a else lookup k l'
  end.

(** dispersion.py:133-154 *)
Definition load_material (h : heap) (material : string) : result ri_object * heap :=
  match lookup material material_files with
  | Some cols => RI_init h (D_file (String.append material ".csv") (map column cols)) 658 EmptyString
  | None => (Raise ValueError, h)
  end.
