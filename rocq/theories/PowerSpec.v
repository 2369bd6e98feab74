(** The exponents k, of the powers of two that are doubles, whose 16 digits name another double. *)
From Coq Require Import ZArith List.
Import ListNotations.
Local Open Scope Z_scope.
Definition lost_powers : list Z := [
  -1023; -1022; -1019; -1018; -1017; -1013; -1012; -1011; -1009; -1007; -1006; -1003; -1002; -1001; -999;
  -998; -996; -995; -993; -992; -989; -988; -986; -985; -979; -970; -966; -965; -963; -962; -961; -960; -959;
  -958; -957; -956; -953; -950; -949; -948; -940; -936; -933; -932; -926; -925; -923; -922; -921; -920; -916;
  -913; -912; -906; -903; -900; -899; -896; -893; -892; -890; -889; -886; -885; -876; -875; -873; -872; -870;
  -869; -867; -866; -863; -862; -860; -859; -858; -857; -856; -850; -849; -847; -840; -833; -830; -829; -827;
  -826; -825; -823; -822; -817; -816; -815; -813; -812; -810; -809; -808; -807; -806; -803; -802; -797; -796;
  -793; -792; -791; -790; -789; -788; -783; -780; -779; -778; -777; -776; -775; -774; -773; -772; -770; -767;
  -766; -764; -763; -762; -760; -759; -754; -753; -752; -747; -746; -744; -740; -737; -736; -735; -734; -733;
  -732; -727; -726; -724; -723; -720; -719; -714; -713; -707; -706; -705; -695; -694; -693; -690; -689; -680;
  -677; -676; -674; -673; -667; -664; -662; -661; -660; -657; -656; -654; -653; -652; -651; -650; -645; -641;
  -637; -631; -630; -629; -627; -626; -621; -620; -619; -617; -616; -614; -611; -610; -607; -606; -604; -597;
  -591; -590; -587; -586; -584; -583; -578; -577; -571; -569; -561; -560; -558; -557; -551; -550; -549; -548;
  -544; -543; -541; -538; -537; -531; -530; -529; -528; -527; -524; -521; -518; -517; -514; -513; -511; -509;
  -508; -507; -506; -501; -499; -496; -491; -490; -489; -488; -487; -486; -485; -481; -480; -478; -477; -476;
  -475; -474; -471; -470; -465; -464; -463; -461; -460; -458; -457; -455; -454; -451; -450; -448; -447; -445;
  -444; -443; -438; -435; -434; -433; -431; -428; -427; -421; -420; -418; -417; -415; -414; -411; -410; -401;
  -400; -398; -397; -395; -394; -393; -388; -387; -385; -384; -383; -382; -381; -378; -375; -366; -365; -364;
  -363; -362; -361; -358; -357; -355; -354; -352; -351; -350; -348; -345; -344; -343; -342; -341; -338; -337;
  -335; -334; -322; -321; -320; -318; -315; -312; -311; -308; -305; -302; -301; -298; -297; -296; -295; -289;
  -282; -281; -279; -278; -275; -274; -272; -269; -268; -267; -265; -264; -259; -258; -257; -252; -251; -245;
  -244; -242; -241; -235; -229; -228; -225; -224; -222; -219; -218; -217; -215; -214; -212; -211; -209; -208;
  -205; -204; -202; -199; -198; -197; -195; -192; -191; -189; -188; -187; -186; -182; -181; -172; -171; -169;
  -168; -166; -165; -162; -161; -159; -158; -156; -155; -154; -152; -146; -145; -140; -139; -138; -136; -135;
  -132; -131; -129; -126; -116; -109; -108; -102; -99; -98; -97; -93; -92; -91; -89; -88; -86; -85; -83; -82;
  -81; -79; -77; -76; -75; -73; -69; -68; -66; -63; -56; -55; -53; -49; -46; -44; -43; -42; -39; -36; -35;
  -33; -32; -26; -25; -24; -23; 54; 57; 58; 64; 65; 67; 68; 70; 71; 77; 80; 81; 84; 85; 87; 89; 90; 91; 94;
  97; 98; 100; 103; 107; 108; 113; 122; 123; 124; 127; 132; 133; 134; 135; 143; 144; 149; 157; 158; 163; 164;
  165; 167; 168; 170; 171; 172; 173; 174; 182; 183; 184; 185; 187; 188; 190; 191; 193; 194; 200; 201; 203;
  204; 206; 207; 213; 214; 215; 216; 217; 218; 226; 227; 228; 233; 234; 236; 237; 240; 243; 250; 253; 260;
  261; 263; 264; 266; 267; 268; 270; 275; 276; 277; 283; 284; 286; 287; 288; 290; 293; 294; 296; 297; 305;
  306; 307; 308; 309; 310; 311; 316; 317; 326; 333; 336; 337; 339; 340; 341; 343; 345; 346; 347; 349; 350;
  353; 354; 356; 357; 359; 360; 361; 363; 366; 367; 369; 370; 371; 373; 374; 376; 378; 379; 386; 387; 389;
  390; 391; 392; 393; 398; 399; 400; 402; 405; 406; 409; 410; 412; 413; 416; 419; 420; 422; 423; 426; 427;
  429; 436; 439; 440; 442; 443; 446; 447; 449; 450; 456; 457; 462; 463; 464; 466; 467; 469; 472; 476; 477;
  479; 480; 481; 492; 495; 496; 497; 502; 503; 505; 509; 510; 512; 513; 515; 516; 519; 525; 534; 535; 536;
  537; 539; 544; 545; 546; 549; 550; 552; 553; 554; 555; 556; 559; 560; 562; 565; 566; 569; 570; 572; 574;
  575; 576; 579; 580; 585; 586; 588; 589; 594; 595; 596; 598; 599; 602; 603; 605; 606; 608; 609; 612; 613;
  615; 616; 622; 628; 629; 638; 639; 645; 652; 653; 658; 659; 662; 665; 668; 669; 670; 675; 678; 679; 681;
  682; 688; 691; 692; 695; 696; 698; 701; 702; 705; 708; 709; 710; 718; 719; 721; 728; 729; 735; 736; 738;
  740; 745; 751; 752; 761; 762; 763; 765; 766; 771; 772; 775; 781; 782; 784; 785; 786; 788; 789; 791; 794;
  795; 798; 803; 804; 805; 808; 809; 811; 812; 814; 815; 816; 818; 821; 822; 824; 825; 834; 838; 844; 858;
  859; 861; 862; 863; 864; 865; 866; 868; 871; 874; 875; 877; 878; 879; 884; 885; 887; 888; 890; 894; 895;
  896; 897; 901; 902; 907; 914; 915; 917; 918; 921; 922; 931; 932; 947; 951; 956; 966; 976; 977; 978; 980;
  984; 990; 991; 994; 995; 997; 998; 1000; 1001; 1002; 1004; 1005; 1007; 1008; 1010; 1011; 1014; 1017; 1018;
  1020].
